(** Convergence of the trapezoid rule on the symmetric logarithmic grid to the
    integral. *)

From Coq Require Import Reals List Arith Lra Lia Sorted.
From Coquelicot Require Import Coquelicot.
From Verif Require Import Prelude RdtModel SpectraModel OpsModel OpsSpec RdtProofs SpectraProofs OpsProofs QuadSpec.
Import ListNotations.
Open Scope R_scope.

(** ** Gaps of a grid *)

Fixpoint gaps (h : R) (g : list R) : Prop :=
  match g with
  | a :: ((b :: _) as g') => b - a <= h /\ gaps h g'
  | _ => True
  end.

Lemma gaps_snoc : forall h g a b, gaps h (g ++ [a]) -> b - a <= h -> gaps h (g ++ [a; b]).
Proof.
  intros h g a b; induction g as [|x g IH]; intros H Hb; [cbn; tauto|].
  destruct g as [|y g].
  - cbn in *. tauto.
  - change (gaps h (x :: y :: (g ++ [a]))) in H. change (gaps h (x :: y :: (g ++ [a; b]))).
    cbn [gaps] in H. destruct H as [H1 H2]. cbn [gaps]. split; [exact H1|]. apply IH; assumption.
Qed.

Lemma gaps_opp_rev : forall h g, gaps h g -> gaps h (map Ropp (rev g)).
Proof.
  intros h g; induction g as [|a g IH]; intros H; [cbn; tauto|].
  destruct g as [|b g]; [cbn; tauto|].
  destruct H as [H1 H2]. specialize (IH H2).
  cbn [rev] in *. rewrite !map_app in *. cbn [map] in *.
  rewrite <- app_assoc. cbn [app]. apply gaps_snoc; [exact IH|lra].
Qed.

Lemma gaps_glue : forall h g1 a g2, gaps h (g1 ++ [a]) -> gaps h (a :: g2) -> gaps h (g1 ++ a :: g2).
Proof.
  intros h g1 a g2; induction g1 as [|x g1 IH]; intros H1 H2; [exact H2|].
  destruct g1 as [|y g1].
  - cbn [app] in *. destruct H1 as [H1 _]. split; assumption.
  - change (gaps h (x :: y :: (g1 ++ [a]))) in H1. change (gaps h (x :: y :: (g1 ++ a :: g2))).
    destruct H1 as [H1 H3]. split; [exact H1|]. apply IH; assumption.
Qed.

Lemma gaps_map_seq : forall h (f : nat -> R) n s,
  (forall i, (s <= i)%nat -> (S i < s + n)%nat -> f (S i) - f i <= h) -> gaps h (map f (seq s n)).
Proof.
  intros h f n; induction n as [|n IH]; intros s H; [cbn; tauto|].
  destruct n as [|n]; [cbn; tauto|].
  change (gaps h (f s :: f (S s) :: map f (seq (S (S s)) n))). split.
  - apply H; lia.
  - apply (IH (S s)). intros i H1 H2. apply H; lia.
Qed.

Lemma gaps_sym : forall h l, gaps h l -> (forall a, hd_error l = Some a -> a <= h) ->
  gaps h (map Ropp (rev l) ++ [0] ++ l).
Proof.
  intros h l H Ha. apply gaps_glue.
  - destruct l as [|a l]; [cbn; tauto|].
    cbn [rev]. rewrite map_app. cbn [map]. rewrite <- app_assoc. cbn [app]. apply gaps_snoc.
    + pose proof (gaps_opp_rev h (a :: l) H) as G. cbn [rev] in G. rewrite map_app in G. exact G.
    + specialize (Ha a eq_refl). lra.
  - destruct l as [|a l]; [cbn; tauto|]. split; [|exact H]. specialize (Ha a eq_refl). lra.
Qed.

(** ** One dimension *)

Lemma RInt_cell : forall f a b eps, a <= b ->
  (forall u, a <= u <= b -> continuous f u) ->
  (forall u, a <= u <= b -> Rabs (f u - f a) <= eps /\ Rabs (f u - f b) <= eps) ->
  Rabs ((b - a) * (f a + f b) / 2 - RInt f a b) <= eps * (b - a).
Proof.
  intros f a b eps Hab Hc Hm.
  assert (E : ex_RInt f a b).
  { apply (@ex_RInt_continuous R_CompleteNormedModule). intros z Hz.
    rewrite Rmin_left, Rmax_right in Hz by assumption. apply Hc; exact Hz. }
  set (c := (f a + f b) / 2).
  assert (D : RInt (fun u => f u - c) a b = RInt f a b - (b - a) * c).
  { etransitivity; [exact (@RInt_minus R_CompleteNormedModule f (fun _ => c) a b E (ex_RInt_const a b c))|].
    rewrite RInt_const. reflexivity. }
  replace ((b - a) * (f a + f b) / 2 - RInt f a b) with (- RInt (fun u => f u - c) a b)
    by (rewrite D; unfold c; field).
  rewrite Rabs_Ropp, (Rmult_comm eps).
  apply abs_RInt_le_const; [exact Hab| |].
  - apply (@ex_RInt_minus R_NormedModule f (fun _ => c)); [exact E|apply ex_RInt_const].
  - intros t Ht. destruct (Hm t Ht) as [H1 H2]. unfold c.
    unfold Rabs in *; destruct (Rcase_abs _); destruct (Rcase_abs _); destruct (Rcase_abs _); lra.
Qed.

Lemma increasing_in : forall g x, increasing g -> In x g -> first_node g <= x <= last_node g.
Proof.
  intros g x; induction g as [|a g IH]; intros Hg Hx; [destruct Hx|].
  destruct Hx as [Hx|Hx].
  - subst x. split; [cbn; lra|]. apply (last_ge_first (a :: g) Hg).
  - destruct g as [|b g]; [destruct Hx|].
    pose proof (increasing_head _ _ _ Hg) as H1.
    destruct (IH (increasing_tail _ _ Hg) Hx) as [H2 H3].
    cbn [first_node hd] in *. unfold first_node in *; cbn [hd] in *.
    split; [lra|]. exact H3.
Qed.

Lemma trap_err : forall g f h eps, increasing g -> gaps h g ->
  (forall u, first_node g <= u <= last_node g -> continuous f u) ->
  (forall u v, first_node g <= u <= last_node g -> first_node g <= v <= last_node g ->
     Rabs (u - v) <= h -> Rabs (f u - f v) <= eps) ->
  Rabs (T g f - RInt f (first_node g) (last_node g)) <= eps * (last_node g - first_node g).
Proof.
  intros g f h eps; induction g as [|a g IH]; intros Hg Hh Hc Hm.
  - unfold first_node, last_node; cbn [hd last]. rewrite RInt_point.
    change (Rabs (0 - 0) <= eps * (0 - 0)). rewrite !Rminus_0_r, Rabs_R0. lra.
  - destruct g as [|b g].
    + unfold first_node, last_node; cbn [hd last]. rewrite T_single, RInt_point.
      change (Rabs (0 - 0) <= eps * (a - a)). rewrite Rminus_0_r, Rabs_R0. lra.
    + pose proof (increasing_head _ _ _ Hg) as Hab.
      pose proof (last_ge_first _ (increasing_tail _ _ Hg)) as Hbl.
      change (last_node (a :: b :: g)) with (last_node (b :: g)) in *.
      change (first_node (a :: b :: g)) with a in *.
      change (first_node (b :: g)) with b in *.
      set (z := last_node (b :: g)) in *.
      rewrite T_cons2.
      assert (E1 : ex_RInt f a b).
      { apply (@ex_RInt_continuous R_CompleteNormedModule). intros t Ht.
        rewrite Rmin_left, Rmax_right in Ht by lra. apply Hc; lra. }
      assert (E2 : ex_RInt f b z).
      { apply (@ex_RInt_continuous R_CompleteNormedModule). intros t Ht.
        rewrite Rmin_left, Rmax_right in Ht by lra. apply Hc; lra. }
      rewrite <- (@RInt_Chasles R_CompleteNormedModule f a b z E1 E2).
      destruct Hh as [Hh1 Hh2].
      assert (C1 : Rabs ((b - a) * (f a + f b) / 2 - RInt f a b) <= eps * (b - a)).
      { apply RInt_cell; [lra|intros u Hu; apply Hc; lra|].
        intros u Hu. split; apply Hm; try lra; apply Rabs_le; lra. }
      assert (C2 : Rabs (T (b :: g) f - RInt f b z) <= eps * (z - b)).
      { apply IH; [exact (increasing_tail _ _ Hg)|exact Hh2| |].
        - intros u Hu. apply Hc; lra.
        - intros u v Hu Hv. apply Hm; lra. }
      change (plus (RInt f a b) (RInt f b z)) with (RInt f a b + RInt f b z).
      replace ((b - a) * (f a + f b) / 2 + T (b :: g) f - (RInt f a b + RInt f b z))
        with (((b - a) * (f a + f b) / 2 - RInt f a b) + (T (b :: g) f - RInt f b z)) by ring.
      eapply Rle_trans; [apply Rabs_triang|]. lra.
Qed.

Lemma T_close : forall g f k c, increasing g -> (forall x, In x g -> Rabs (f x - k x) <= c) ->
  Rabs (T g f - T g k) <= c * (last_node g - first_node g).
Proof.
  intros g f k c Hg H.
  assert (D : T g f - T g k = T g (fun x => 1 * f x + (-1) * k x)) by (rewrite T_linear; ring).
  rewrite D. apply Rabs_le. split.
  - replace (- (c * (last_node g - first_node g))) with ((- c) * (last_node g - first_node g)) by ring.
    apply T_lower; [exact Hg|]. intros x Hx. specialize (H x Hx). apply Rabs_le_between in H. lra.
  - apply T_upper; [exact Hg|]. intros x Hx. specialize (H x Hx). apply Rabs_le_between in H. lra.
Qed.

(** ** Two dimensions *)

Definition cont2 (f : R -> R -> R) (x y : R) : Prop := continuity_2d_pt f x y.

Lemma cont2_slice : forall f x y, cont2 f x y -> continuous (fun t => f x t) y.
Proof.
  intros f x y H. apply filterlim_locally. intros eps.
  destruct (H eps) as [d Hd]. exists d. intros t Ht. apply Hd; [rewrite Rminus_eq_0, Rabs_R0; apply cond_pos|exact Ht].
Qed.

Lemma slice_ex : forall f B x, plane_continuous f -> ex_RInt (fun y => f x y) (- B) B.
Proof.
  intros f B x Hf. apply (@ex_RInt_continuous R_CompleteNormedModule).
  intros z _. apply cont2_slice, Hf.
Qed.

Lemma inner_close : forall f B x x' c, 0 <= B -> plane_continuous f ->
  (forall y, - B <= y <= B -> Rabs (f x y - f x' y) <= c) ->
  Rabs (RInt (fun y => f x y) (- B) B - RInt (fun y => f x' y) (- B) B) <= (2 * B) * c.
Proof.
  intros f B x x' c HB Hf H.
  pose proof (@RInt_minus R_CompleteNormedModule (fun y => f x y) (fun y => f x' y) (- B) B
                (slice_ex f B x Hf) (slice_ex f B x' Hf)) as D.
  change (minus (RInt (fun y => f x y) (- B) B) (RInt (fun y => f x' y) (- B) B))
    with (RInt (fun y => f x y) (- B) B - RInt (fun y => f x' y) (- B) B) in D.
  rewrite <- D. replace (2 * B) with (B - - B) by ring.
  apply abs_RInt_le_const; [lra| |exact H].
  apply (@ex_RInt_minus R_NormedModule (fun y => f x y) (fun y => f x' y)); apply slice_ex; exact Hf.
Qed.

Lemma inner_continuous : forall f B x, 0 <= B -> plane_continuous f ->
  continuous (fun x => RInt (fun y => f x y) (- B) B) x.
Proof.
  intros f B x HB Hf. apply filterlim_locally. intros eps.
  assert (He : 0 < eps / (2 * (2 * B + 1))).
  { apply Rdiv_lt_0_compat; [apply cond_pos|lra]. }
  destruct (uniform_continuity_2d f (x - 1) (x + 1) (- B) B
              (fun u v _ _ => Hf u v) (mkposreal _ He)) as [d Hd]. cbn in Hd.
  assert (Hd1 : 0 < Rmin d 1) by (apply Rmin_glb_lt; [apply cond_pos|lra]).
  exists (mkposreal _ Hd1). intros t Ht.
  change (Rabs (t - x) < Rmin d 1) in Ht.
  change (Rabs (RInt (fun y => f t y) (- B) B - RInt (fun y => f x y) (- B) B) < eps).
  assert (Ht1 : Rabs (t - x) < d) by (eapply Rlt_le_trans; [exact Ht|apply Rmin_l]).
  assert (Ht2 : Rabs (t - x) < 1) by (eapply Rlt_le_trans; [exact Ht|apply Rmin_r]).
  apply Rabs_def2 in Ht2.
  eapply Rle_lt_trans.
  - apply (inner_close f B t x (eps / (2 * (2 * B + 1))) HB Hf).
    intros y Hy. left. apply Hd; try lra; try exact Ht1.
    rewrite Rminus_eq_0, Rabs_R0. apply cond_pos.
  - pose proof (cond_pos eps) as Hp.
    replace (2 * B * (eps / (2 * (2 * B + 1)))) with (eps * (B / (2 * B + 1))) by (field; lra).
    apply Rlt_le_trans with (eps * 1); [|lra]. apply Rmult_lt_compat_l; [exact Hp|].
    apply Rmult_lt_reg_r with (2 * B + 1); [lra|]. field_simplify; lra.
Qed.

Lemma box_ex : forall f B, 0 <= B -> plane_continuous f -> box_integrable f B.
Proof.
  intros f B HB Hf. split; [intros x _; apply slice_ex; exact Hf|].
  apply (@ex_RInt_continuous R_CompleteNormedModule).
  intros z _. apply inner_continuous; assumption.
Qed.

Lemma quad_err : forall g f h eps B, increasing g -> gaps h g -> 0 <= B -> 0 <= h ->
  first_node g = - B -> last_node g = B -> plane_continuous f ->
  (forall x y x' y', - B <= x <= B -> - B <= y <= B -> - B <= x' <= B -> - B <= y' <= B ->
     Rabs (x - x') <= h -> Rabs (y - y') <= h -> Rabs (f x y - f x' y') <= eps) ->
  Rabs (quad23 g g f - box_integral f B) <= 2 * eps * (2 * B)^2.
Proof.
  intros g f h eps B Hg Hh HB Hh0 Hf1 Hl1 Hf Hm.
  rewrite quad23_T. unfold box_integral.
  set (F := fun x => RInt (fun y => f x y) (- B) B).
  assert (A : Rabs (T g (fun x => T g (fun y => f x y)) - T g F) <= (eps * (2 * B)) * (last_node g - first_node g)).
  { apply T_close; [exact Hg|]. intros x Hx.
    pose proof (increasing_in g x Hg Hx) as Hxr. rewrite Hf1, Hl1 in Hxr.
    pose proof (trap_err g (fun y => f x y) h eps Hg Hh) as E.
    rewrite Hf1, Hl1 in E. unfold F.
    replace (eps * (2 * B)) with (eps * (B - - B)) by ring.
    apply E.
    - intros u _. apply cont2_slice, Hf.
    - intros u v Hu Hv Huv. apply Hm; try assumption. rewrite Rminus_eq_0, Rabs_R0. exact Hh0. }
  assert (G : Rabs (T g F - RInt F (- B) B) <= ((2 * B) * eps) * (B - - B)).
  { pose proof (trap_err g F h ((2 * B) * eps) Hg Hh) as E. rewrite Hf1, Hl1 in E. apply E.
    - intros u _. apply inner_continuous; assumption.
    - intros u v Hu Hv Huv. apply inner_close; [exact HB|exact Hf|].
      intros y Hy. apply Hm; try assumption. rewrite Rminus_eq_0, Rabs_R0. exact Hh0. }
  rewrite Hf1, Hl1 in A.
  replace (T g (fun x => T g (fun y => f x y)) - RInt F (- B) B)
    with ((T g (fun x => T g (fun y => f x y)) - T g F) + (T g F - RInt F (- B) B)) by ring.
  eapply Rle_trans; [apply Rabs_triang|]. nra.
Qed.

(** ** The symmetric logarithmic grid *)

Lemma Rpower10_pos : forall x, 0 < Rpower 10 x.
Proof. intros x. apply exp_pos. Qed.

Lemma ln10_pos : 0 < ln 10.
Proof. rewrite <- ln_1. apply ln_increasing; lra. Qed.

Lemma logspace_gaps : forall p1 p2 N h, p1 < p2 -> (2 <= N)%nat ->
  Rpower 10 p2 * ((p2 - p1) / INR (N - 1) * ln 10) <= h -> gaps h (logspace p1 p2 N).
Proof.
  intros p1 p2 N h Hp HN Hh. unfold logspace, linspace. rewrite map_map.
  apply gaps_map_seq. intros i _ Hi.
  assert (HM : 0 < INR (N - 1)) by (apply lt_0_INR; lia).
  set (d := (p2 - p1) / INR (N - 1)) in *.
  assert (Hd : 0 < d) by (apply Rdiv_lt_0_compat; lra).
  assert (Hle : p1 + INR (S i) * d <= p2).
  { assert (INR (S i) <= INR (N - 1)) by (apply le_INR; lia).
    replace p2 with (p1 + INR (N - 1) * d) by (unfold d; field; lra).
    apply Rplus_le_compat_l, Rmult_le_compat_r; lra. }
  rewrite S_INR in *.
  replace (Rpower 10 (p1 + INR i * d)) with (Rpower 10 (p1 + (INR i + 1) * d) * Rpower 10 (- d))
    by (rewrite <- Rpower_plus; f_equal; ring).
  set (A := Rpower 10 (p1 + (INR i + 1) * d)) in *.
  assert (HA : A <= Rpower 10 p2).
  { destruct Hle as [Hle|Hle]; [left; apply Rpower10_lt; exact Hle|right; unfold A; rewrite Hle; reflexivity]. }
  assert (HA0 : 0 < A) by apply Rpower10_pos.
  assert (Hexp : 1 - d * ln 10 <= Rpower 10 (- d)).
  { unfold Rpower. pose proof (exp_ineq1_le (- d * ln 10)). lra. }
  pose proof ln10_pos as Hl.
  assert (0 < d * ln 10) by (apply Rmult_lt_0_compat; assumption).
  nra.
Qed.

Lemma sym_grid_gaps : forall p1 p2 N h, p1 < p2 -> (2 <= N)%nat ->
  Rpower 10 p1 <= h -> Rpower 10 p2 * ((p2 - p1) / INR (N - 1) * ln 10) <= h ->
  gaps h (sym_grid p1 p2 N).
Proof.
  intros p1 p2 N h Hp HN H1 H2. unfold sym_grid. apply gaps_sym.
  - apply logspace_gaps; assumption.
  - intros a Ha. destruct N as [|N]; [lia|].
    unfold logspace, linspace in Ha. cbn [seq map hd_error] in Ha. injection Ha as Ha. subst a.
    cbn [INR]. rewrite Rmult_0_l, Rplus_0_r. exact H1.
Qed.

Lemma large_INR : forall x, exists N0, (2 <= N0)%nat /\ forall N, (N0 <= N)%nat -> x <= INR (N - 1).
Proof.
  intros x. destruct (nfloor_ex (Rmax x 0)) as [n [_ Hn]]; [apply Rmax_r|].
  exists (S (S (S n))). split; [lia|]. intros N HN.
  apply Rle_trans with (Rmax x 0); [apply Rmax_l|]. left.
  eapply Rlt_le_trans; [exact Hn|]. rewrite <- S_INR.
  apply le_INR. lia.
Qed.

Lemma gaps_scale : forall c h g, 0 < c -> gaps h g -> gaps (h / c) (map (fun x => x / c) g).
Proof.
  intros c h g Hc; induction g as [|a g IH]; intros H; [cbn; tauto|].
  destruct g as [|b g]; [cbn; tauto|]. destruct H as [H1 H2].
  change (b / c - a / c <= h / c /\ gaps (h / c) (map (fun x => x / c) (b :: g))). split; [|apply IH; exact H2].
  replace (b / c - a / c) with ((b - a) / c) by (field; lra).
  apply Rmult_le_compat_r; [left; apply Rinv_0_lt_compat; exact Hc|exact H1].
Qed.

Lemma increasing_scale : forall c g, 0 < c -> increasing g -> increasing (map (fun x => x / c) g).
Proof.
  intros c g Hc H. apply (ss_map R R Rlt); [|exact H].
  intros x y Hxy. apply Rmult_lt_compat_r; [apply Rinv_0_lt_compat; exact Hc|exact Hxy].
Qed.

Lemma first_scale : forall c g, first_node (map (fun x => x / c) g) = first_node g / c.
Proof. intros c [|a g]; unfold first_node; cbn; [unfold Rdiv; ring|reflexivity]. Qed.

Lemma last_scale : forall c g, last_node (map (fun x => x / c) g) = last_node g / c.
Proof.
  intros c g. unfold last_node. induction g as [|a g IH]; [cbn; unfold Rdiv; ring|].
  destruct g as [|b g]; [reflexivity|]. change (last (map (fun x => x / c) (b :: g)) 0 = last (b :: g) 0 / c). exact IH.
Qed.

(** ** Convergence on the (possibly rescaled) grid *)

Lemma quad_converges_scaled : forall f p2 c, 0 < c -> plane_continuous f ->
  refines_to (fun p1 N => let g := map (fun x => x / c) (sym_grid p1 p2 N) in quad23 g g f)
             (box_integral f (Rpower 10 p2 / c)).
Proof.
  intros f p2 c Hc Hf eps He. cbv zeta.
  set (B := Rpower 10 p2 / c). pose proof (Rpower10_pos p2) as HA.
  assert (HB : 0 < B) by (apply Rdiv_lt_0_compat; assumption).
  assert (He' : 0 < eps / (2 * (2 * B)^2)).
  { apply Rdiv_lt_0_compat; [exact He|]. assert (0 < (2 * B)^2) by (apply pow_lt; lra). lra. }
  destruct (uniform_continuity_2d f (- B) B (- B) B (fun u v _ _ => Hf u v) (mkposreal _ He')) as [d Hd].
  cbn in Hd. pose proof (cond_pos d) as Hd0.
  set (h := c * d / 2).
  assert (Hh : 0 < h) by (unfold h; pose proof (Rmult_lt_0_compat _ _ Hc Hd0); lra).
  assert (Hhc : h / c < d) by (unfold h; replace (c * d / 2 / c) with (d / 2) by (field; lra); lra).
  exists (Rmin (p2 - 1) (ln h / ln 10)). intros p1 Hp1.
  assert (Hlt : p1 < p2).
  { eapply Rle_lt_trans; [exact Hp1|]. eapply Rle_lt_trans; [apply Rmin_l|]. lra. }
  assert (Hsm : Rpower 10 p1 <= h).
  { assert (p1 <= ln h / ln 10) by (eapply Rle_trans; [exact Hp1|apply Rmin_r]).
    assert (E : Rpower 10 (ln h / ln 10) = h).
    { unfold Rpower. replace (ln h / ln 10 * ln 10) with (ln h) by (field; pose proof ln10_pos; lra).
      apply exp_ln; lra. }
    rewrite <- E. destruct H as [H|H]; [left; apply Rpower10_lt; exact H|right; rewrite H; reflexivity]. }
  pose proof ln10_pos as Hl.
  destruct (large_INR (Rpower 10 p2 * ((p2 - p1) * ln 10) / h)) as [N0 [HN0 HN]].
  exists N0. intros N HNN. specialize (HN N HNN).
  assert (HM : 0 < INR (N - 1)) by (apply lt_0_INR; lia).
  assert (Hgap : Rpower 10 p2 * ((p2 - p1) / INR (N - 1) * ln 10) <= h).
  { apply Rmult_le_reg_r with (INR (N - 1)); [exact HM|].
    replace (Rpower 10 p2 * ((p2 - p1) / INR (N - 1) * ln 10) * INR (N - 1))
      with (Rpower 10 p2 * ((p2 - p1) * ln 10) / h * h) by (field; lra).
    rewrite (Rmult_comm _ h). apply Rmult_le_compat_l; lra. }
  eapply Rle_trans.
  - apply (quad_err (map (fun x => x / c) (sym_grid p1 p2 N)) f (h / c) (eps / (2 * (2 * B)^2)) B).
    + apply increasing_scale; [exact Hc|]. apply sym_grid_sorted; exact Hlt.
    + apply gaps_scale; [exact Hc|]. apply sym_grid_gaps; [exact Hlt|lia|exact Hsm|exact Hgap].
    + lra.
    + left. apply Rdiv_lt_0_compat; assumption.
    + rewrite first_scale, sym_grid_first by lia. unfold B. field. lra.
    + rewrite last_scale, sym_grid_last by lia. reflexivity.
    + exact Hf.
    + intros x y x' y' Hx Hy Hx' Hy' H1 H2. left. rewrite Rabs_minus_sym.
      apply Hd; try assumption; rewrite Rabs_minus_sym; lra.
  - right. field. lra.
Qed.

Lemma map_div1 : forall g, map (fun x => x / 1) g = g.
Proof. intros g. rewrite <- (map_id g) at 2. apply map_ext. intros x. field. Qed.

Lemma quad_converges : forall f p2, plane_continuous f ->
  refines_to (fun p1 N => let g := sym_grid p1 p2 N in quad23 g g f) (box_integral f (Rpower 10 p2)).
Proof.
  intros f p2 Hf eps He.
  destruct (quad_converges_scaled f p2 1 Rlt_0_1 Hf eps He) as [P HP].
  exists P. intros p1 Hp1. destruct (HP p1 Hp1) as [N0 HN]. exists N0. intros N HNN.
  specialize (HN N HNN). cbv zeta in *. rewrite map_div1 in HN.
  replace (Rpower 10 p2 / 1) with (Rpower 10 p2) in HN by field. exact HN.
Qed.

(** ** Arithmetic of [refines_to] *)

Lemma refines_cont1 : forall V S F, refines_to V S -> continuity_pt F S -> refines_to (fun p N => F (V p N)) (F S).
Proof.
  intros V S F H HF eps He.
  destruct (proj1 (continuity_pt_locally F S) HF (mkposreal _ He)) as [d Hd].
  pose proof (cond_pos d) as Hd0.
  destruct (H (d / 2) ltac:(lra)) as [P HP]. exists P. intros p1 Hp. destruct (HP p1 Hp) as [N0 HN].
  exists N0. intros N HNN. left. apply Hd. specialize (HN N HNN).
  change (Rabs (V p1 N - S) < d). lra.
Qed.

Lemma refines_pair : forall V S W U F, refines_to V S -> refines_to W U ->
  continuity_2d_pt F S U -> refines_to (fun p N => F (V p N) (W p N)) (F S U).
Proof.
  intros V S W U F HV HW HF eps He. destruct (HF (mkposreal _ He)) as [d Hd].
  pose proof (cond_pos d) as Hd0.
  destruct (HV (d / 2) ltac:(lra)) as [P1 HP1]. destruct (HW (d / 2) ltac:(lra)) as [P2 HP2].
  exists (Rmin P1 P2). intros p1 Hp.
  destruct (HP1 p1 ltac:(eapply Rle_trans; [exact Hp|apply Rmin_l])) as [N1 HN1].
  destruct (HP2 p1 ltac:(eapply Rle_trans; [exact Hp|apply Rmin_r])) as [N2 HN2].
  exists (Nat.max N1 N2). intros N HN. left.
  specialize (HN1 N ltac:(lia)). specialize (HN2 N ltac:(lia)). apply Hd; lra.
Qed.

Lemma refines_scal : forall V S k, refines_to V S -> refines_to (fun p N => k * V p N) (k * S).
Proof.
  intros V S k H. apply (refines_cont1 V S (fun x => k * x) H).
  apply continuity_pt_mult; [apply continuity_pt_const; intros x y; reflexivity|apply continuity_pt_id].
Qed.
