From Coq Require Import Reals Lra Lia Psatz List Arith ZArith Sorted.
From Coquelicot Require Import Complex.
From Verif Require Import Prelude RdtModel SpectraModel RdtSpec RdtProofs SpectraProofs OpsModel OpsSpec.
Import ListNotations.
Open Scope R_scope.

(** ** Sorted lists *)

Lemma ss_app : forall A (P : A -> A -> Prop) l1 l2,
  StronglySorted P l1 -> StronglySorted P l2 -> (forall x y, In x l1 -> In y l2 -> P x y) ->
  StronglySorted P (l1 ++ l2).
Proof.
  induction l1 as [|a l1 IH]; simpl; intros l2 H1 H2 H; [assumption|].
  inversion H1; subst. constructor.
  - apply IH; auto.
  - apply Forall_app. split; [assumption|]. apply Forall_forall. auto.
Qed.

Lemma ss_rev : forall A (P : A -> A -> Prop) l,
  StronglySorted P l -> StronglySorted (fun x y => P y x) (rev l).
Proof.
  induction l as [|a l IH]; simpl; intro H; [constructor|].
  inversion H; subst. apply ss_app.
  - apply IH; assumption.
  - repeat constructor.
  - intros x y Hx [<-|[]]. apply in_rev in Hx. rewrite Forall_forall in H3. auto.
Qed.

Lemma ss_map : forall A B (P : A -> A -> Prop) (Q : B -> B -> Prop) f l,
  (forall x y, P x y -> Q (f x) (f y)) -> StronglySorted P l -> StronglySorted Q (map f l).
Proof.
  induction l as [|a l IH]; simpl; intros H Hs; [constructor|].
  inversion Hs; subst. constructor; [apply IH; assumption|].
  rewrite Forall_forall in *. intros y Hy. apply in_map_iff in Hy. destruct Hy as [x [<- Hx]]. auto.
Qed.

Lemma ss_seq : forall n s, StronglySorted lt (seq s n).
Proof.
  induction n as [|n IH]; intro s; simpl; constructor; [apply IH|].
  apply Forall_forall. intros x Hx. apply in_seq in Hx. lia.
Qed.

Lemma increasing_tail : forall a l, increasing (a :: l) -> increasing l.
Proof. intros a l H. inversion H; assumption. Qed.

Lemma increasing_head : forall a b l, increasing (a :: b :: l) -> a < b.
Proof. intros a b l H. inversion H as [|? ? _ HF]; subst. inversion HF; assumption. Qed.

(** ** Trapezoid rule *)

(** Trapezoid rule of the values of a function. *)
Definition T (g : list R) (f : R -> R) : R := trapz g (map f g).

Lemma T_cons2 : forall a b l f,
  T (a :: b :: l) f = (b - a) * (f a + f b) / 2 + T (b :: l) f.
Proof. reflexivity. Qed.

Lemma T_single : forall a f, T [a] f = 0.
Proof. reflexivity. Qed.

Lemma T_ext : forall g f h, (forall x, In x g -> f x = h x) -> T g f = T g h.
Proof. intros. unfold T. f_equal. apply map_ext_in. assumption. Qed.

Lemma T_linear : forall g f h a b, T g (fun x => a * f x + b * h x) = a * T g f + b * T g h.
Proof.
  induction g as [|x g IH]; intros f h a b; [unfold T; simpl; ring|].
  destruct g as [|y g]; [unfold T; simpl; ring|].
  rewrite !T_cons2, IH. field.
Qed.

Lemma T_mono : forall g f h, increasing g -> (forall x, In x g -> f x <= h x) -> T g f <= T g h.
Proof.
  induction g as [|x g IH]; intros f h Hs H; [unfold T; simpl; lra|].
  destruct g as [|y g]; [unfold T; simpl; lra|].
  rewrite !T_cons2.
  assert (x < y) by (eapply increasing_head; eassumption).
  assert (f x <= h x) by (apply H; left; reflexivity).
  assert (f y <= h y) by (apply H; right; left; reflexivity).
  assert (T (y :: g) f <= T (y :: g) h).
  { apply IH; [eapply increasing_tail; eassumption|]. intros; apply H; right; assumption. }
  nra.
Qed.

Lemma T_affine : forall g f a b, (forall x, In x g -> f x = a + b * x) ->
  T g f = a * (last_node g - first_node g) + b * (last_node g ^ 2 - first_node g ^ 2) / 2.
Proof.
  intros g f a b H. rewrite (T_ext g f (fun x => a + b * x)) by assumption. clear H.
  induction g as [|x g IH]; [unfold T, last_node, first_node; simpl; field|].
  destruct g as [|y g]; [unfold T, last_node, first_node; simpl; field|].
  rewrite T_cons2, IH. unfold last_node, first_node. cbn [hd].
  change (last (x :: y :: g) 0) with (last (y :: g) 0). field.
Qed.

Lemma T_const : forall g c, T g (fun _ => c) = c * (last_node g - first_node g).
Proof. intros. rewrite (T_affine g _ c 0) by (intros; ring). field. Qed.

Lemma T_scal : forall g f c, T g (fun x => c * f x) = c * T g f.
Proof.
  intros. rewrite (T_ext g _ (fun x => c * f x + 0 * f x)) by (intros; ring). rewrite T_linear. ring.
Qed.

Lemma last_ge_first : forall g, increasing g -> first_node g <= last_node g.
Proof.
  unfold first_node, last_node. induction g as [|x g IH]; intro H; [simpl; lra|].
  destruct g as [|y g]; [simpl; lra|].
  pose proof (increasing_head _ _ _ H). pose proof (IH (increasing_tail _ _ H)) as H1.
  change (last (x :: y :: g) 0) with (last (y :: g) 0). cbn [hd] in *. lra.
Qed.

Lemma T_lower : forall g f c, increasing g -> (forall x, In x g -> c <= f x) ->
  c * (last_node g - first_node g) <= T g f.
Proof. intros. rewrite <- T_const. apply T_mono; auto. Qed.

Lemma T_upper : forall g f c, increasing g -> (forall x, In x g -> f x <= c) ->
  T g f <= c * (last_node g - first_node g).
Proof. intros. rewrite <- T_const. apply T_mono; auto. Qed.

Lemma T_nonneg : forall g f, increasing g -> (forall x, In x g -> 0 <= f x) -> 0 <= T g f.
Proof. intros g f Hs H. pose proof (T_lower g f 0 Hs H). lra. Qed.

Lemma T_strict_last : forall g f h, increasing g -> (2 <= length g)%nat ->
  (forall x, In x g -> f x <= h x) -> f (last_node g) < h (last_node g) -> T g f < T g h.
Proof.
  induction g as [|x g IH]; intros f h Hs Hl H Hlast; [simpl in Hl; lia|].
  destruct g as [|y g]; [simpl in Hl; lia|]. rewrite !T_cons2.
  assert (x < y) by (eapply increasing_head; eassumption).
  assert (f x <= h x) by (apply H; left; reflexivity).
  assert (f y <= h y) by (apply H; right; left; reflexivity).
  destruct g as [|z g].
  - rewrite !T_single. unfold last_node in Hlast. simpl in Hlast. nra.
  - assert (T (y :: z :: g) f < T (y :: z :: g) h).
    { apply IH.
      - eapply increasing_tail; eassumption.
      - simpl; lia.
      - intros; apply H; right; assumption.
      - exact Hlast. }
    nra.
Qed.

(** Snoc decomposition and reversal. *)
Lemma T_snoc : forall g a b f, T (g ++ [a; b]) f = T (g ++ [a]) f + (b - a) * (f a + f b) / 2.
Proof.
  induction g as [|x g IH]; intros a b f; [unfold T; simpl; ring|].
  destruct g as [|y g]; [unfold T; simpl; ring|].
  simpl app. rewrite !T_cons2. specialize (IH a b f). simpl app in IH. rewrite IH. ring.
Qed.

Lemma T_rev : forall g f, T (rev g) f = - T g f.
Proof.
  induction g as [|x g IH]; intro f; [unfold T; simpl; ring|].
  destruct g as [|y g]; [unfold T; simpl; ring|].
  rewrite T_cons2. change (rev (x :: y :: g)) with ((rev g ++ [y]) ++ [x]).
  rewrite <- app_assoc. change ([y] ++ [x]) with [y; x]. rewrite T_snoc.
  change (rev g ++ [y]) with (rev (y :: g)). rewrite IH. field.
Qed.

Lemma T_opp : forall g f, T (map Ropp g) f = - T g (fun x => f (- x)).
Proof.
  induction g as [|x g IH]; intro f; [unfold T; simpl; ring|].
  destruct g as [|y g]; [unfold T; simpl; ring|].
  cbn [map]. rewrite T_cons2. specialize (IH f). cbn [map] in IH. rewrite IH, T_cons2. field.
Qed.

Lemma T_reflect : forall g f, symmetric g -> T g (fun x => f (- x)) = T g f.
Proof.
  intros g f Hs. unfold symmetric in Hs.
  transitivity (T (map Ropp (rev g)) f); [|rewrite Hs; reflexivity].
  rewrite T_opp, T_rev. ring.
Qed.

Lemma T_odd : forall g f, symmetric g -> (forall x, In x g -> f (- x) = - f x) -> T g f = 0.
Proof.
  intros g f Hs Ho. pose proof (T_reflect g f Hs) as H.
  rewrite (T_ext g (fun x => f (- x)) (fun x => -1 * f x)) in H.
  - rewrite T_scal in H. lra.
  - intros x Hx. rewrite Ho by assumption. ring.
Qed.

(** ** Grid *)

Lemma linspace_length : forall a b n, length (linspace a b n) = n.
Proof. intros. unfold linspace. rewrite map_length, seq_length. reflexivity. Qed.

Lemma linspace_sorted : forall a b n, a < b -> StronglySorted Rlt (linspace a b n).
Proof.
  intros a b n Hab. unfold linspace.
  destruct n as [|[|n]]; [constructor|repeat constructor|].
  eapply ss_map; [|apply ss_seq]. intros i j Hij. cbv beta.
  assert (0 < INR (S (S n) - 1)) by (apply lt_0_INR; lia).
  apply lt_INR in Hij.
  assert (0 < (b - a) / INR (S (S n) - 1)) by (apply Rdiv_lt_0_compat; lra).
  nra.
Qed.

Lemma Rpower10_lt : forall x y, x < y -> Rpower 10 x < Rpower 10 y.
Proof. intros. apply Rpower_lt; lra. Qed.

Lemma logspace_sorted : forall a b n, a < b -> StronglySorted Rlt (logspace a b n).
Proof.
  intros. unfold logspace. eapply ss_map; [|apply linspace_sorted; assumption].
  intros; apply Rpower10_lt; assumption.
Qed.

Lemma logspace_length : forall a b n, length (logspace a b n) = n.
Proof. intros. unfold logspace. rewrite map_length. apply linspace_length. Qed.

Lemma sym_grid_length : forall p1 p2 N, length (sym_grid p1 p2 N) = (2 * N + 1)%nat.
Proof.
  intros. unfold sym_grid. cbv zeta. rewrite !app_length, map_length, rev_length, logspace_length. simpl. lia.
Qed.

Lemma sym_grid_sorted : forall p1 p2 N, p1 < p2 -> increasing (sym_grid p1 p2 N).
Proof.
  intros p1 p2 N H. unfold sym_grid, increasing. cbv zeta.
  apply ss_app.
  - eapply ss_map; [|apply ss_rev; apply logspace_sorted; exact H]. intros x y Hxy. cbv beta in *. lra.
  - simpl. constructor; [apply logspace_sorted; assumption|].
    apply Forall_forall. intros x Hx. eapply logspace_pos; exact Hx.
  - intros x y Hx Hy. apply in_map_iff in Hx. destruct Hx as [t [<- Ht]]. apply in_rev in Ht.
    apply logspace_pos in Ht. destruct Hy as [<-|Hy]; [lra|].
    apply logspace_pos in Hy. lra.
Qed.

Lemma sym_grid_symmetric : forall p1 p2 N, symmetric (sym_grid p1 p2 N).
Proof.
  intros. unfold symmetric, sym_grid. cbv zeta.
  rewrite !rev_app_distr, !map_app. rewrite <- map_rev, rev_involutive, map_map.
  rewrite (map_ext (fun x => - - x) (fun x => x)) by (intro; ring). rewrite map_id.
  simpl. rewrite Ropp_0. rewrite <- app_assoc. reflexivity.
Qed.

Lemma sym_grid_zero : forall p1 p2 N, In 0 (sym_grid p1 p2 N).
Proof. intros. unfold sym_grid. cbv zeta. apply in_or_app. right. left. reflexivity. Qed.

Lemma last_app_r : forall (l1 l2 : list R) d, l2 <> [] -> last (l1 ++ l2) d = last l2 d.
Proof.
  induction l1 as [|a l1 IH]; intros l2 d H; [reflexivity|].
  simpl app. destruct (l1 ++ l2) eqn:E.
  - apply app_eq_nil in E. destruct E. contradiction.
  - rewrite <- E. change (last (a :: (l1 ++ l2)) d = last l2 d). rewrite <- (IH l2 d H).
    rewrite E. reflexivity.
Qed.

Lemma last_map_seq : forall (f : nat -> R) n s d, last (map f (seq s (S n))) d = f (s + n)%nat.
Proof.
  induction n as [|n IH]; intros s d; [simpl; f_equal; lia|].
  change (seq s (S (S n))) with (s :: seq (S s) (S n)).
  replace (s + S n)%nat with (S s + n)%nat by lia.
  cbn [map]. rewrite <- (IH (S s) d).
  destruct (map f (seq (S s) (S n))) eqn:E; [simpl in E; discriminate|]. reflexivity.
Qed.

Lemma sym_grid_last : forall p1 p2 N, (2 <= N)%nat -> last_node (sym_grid p1 p2 N) = Rpower 10 p2.
Proof.
  intros p1 p2 N HN. unfold last_node, sym_grid. cbv zeta.
  destruct N as [|[|n]]; [lia|lia|].
  rewrite last_app_r by discriminate. rewrite last_app_r.
  - unfold logspace, linspace. rewrite map_map. rewrite last_map_seq. f_equal.
    replace (S (S n) - 1)%nat with (S n) by lia. simpl plus. field. apply not_0_INR. lia.
  - unfold logspace, linspace. simpl. discriminate.
Qed.

Lemma sym_first : forall g, symmetric g -> g <> [] -> first_node g = - last_node g.
Proof.
  intros g H Hne. unfold symmetric in H. unfold first_node, last_node.
  destruct (exists_last Hne) as [g' [z Hz]]. rewrite <- H. subst g.
  rewrite rev_app_distr. simpl map. cbn [hd]. f_equal.
  change (- z :: map Ropp (rev g')) with (map Ropp (z :: rev g')).
  replace (z :: rev g') with (rev (g' ++ [z])) by (rewrite rev_app_distr; reflexivity).
  rewrite H. rewrite last_app_r by discriminate. reflexivity.
Qed.

Lemma sym_grid_first : forall p1 p2 N, (2 <= N)%nat -> first_node (sym_grid p1 p2 N) = - Rpower 10 p2.
Proof.
  intros. rewrite sym_first; [|apply sym_grid_symmetric|].
  - rewrite sym_grid_last by assumption. reflexivity.
  - intro E. pose proof (sym_grid_length p1 p2 N) as Hl. rewrite E in Hl. simpl in Hl. lia.
Qed.

(** ** Nested rule *)

Lemma quad23_T : forall g2 g3 f, quad23 g2 g3 f = T g2 (fun k2 => T g3 (fun k3 => f k2 k3)).
Proof. reflexivity. Qed.

Lemma quad23_ext : forall g2 g3 f h, (forall x y, In x g2 -> In y g3 -> f x y = h x y) ->
  quad23 g2 g3 f = quad23 g2 g3 h.
Proof. intros. rewrite !quad23_T. apply T_ext. intros. apply T_ext. intros. auto. Qed.

Lemma quad23_linear : forall g2 g3 f h a b,
  quad23 g2 g3 (fun x y => a * f x y + b * h x y) = a * quad23 g2 g3 f + b * quad23 g2 g3 h.
Proof.
  intros. rewrite !quad23_T. rewrite <- T_linear. apply T_ext. intros. apply T_linear.
Qed.

Lemma quad23_scal : forall g2 g3 f c, quad23 g2 g3 (fun x y => c * f x y) = c * quad23 g2 g3 f.
Proof. intros. rewrite !quad23_T, <- T_scal. apply T_ext. intros. apply T_scal. Qed.

Lemma quad23_mono : forall g2 g3 f h, increasing g2 -> increasing g3 ->
  (forall x y, In x g2 -> In y g3 -> f x y <= h x y) -> quad23 g2 g3 f <= quad23 g2 g3 h.
Proof. intros. rewrite !quad23_T. apply T_mono; [assumption|]. intros. apply T_mono; auto. Qed.

Lemma quad23_bilinear : forall g2 g3 a b c d,
  quad23 g2 g3 (fun x y => a + b * x + c * y + d * x * y)
  = let X := last_node g2 - first_node g2 in
    let Y := last_node g3 - first_node g3 in
    let X2 := (last_node g2 ^ 2 - first_node g2 ^ 2) / 2 in
    let Y2 := (last_node g3 ^ 2 - first_node g3 ^ 2) / 2 in
    a * X * Y + b * X2 * Y + c * X * Y2 + d * X2 * Y2.
Proof.
  intros. cbv zeta. rewrite quad23_T.
  set (Y := last_node g3 - first_node g3). set (Y2 := (last_node g3 ^ 2 - first_node g3 ^ 2) / 2).
  rewrite (T_affine g2 _ (a * Y + c * Y2) (b * Y + d * Y2)).
  - field.
  - intros x _. rewrite (T_affine g3 _ (a + b * x) (c + d * x)) by (intros; ring).
    unfold Y, Y2. field.
Qed.

Lemma quad23_const : forall g2 g3 c,
  quad23 g2 g3 (fun _ _ => c) = c * (last_node g2 - first_node g2) * (last_node g3 - first_node g3).
Proof.
  intros. rewrite (quad23_ext _ _ _ (fun x y => c + 0 * x + 0 * y + 0 * x * y)) by (intros; ring).
  rewrite quad23_bilinear. cbv zeta. field.
Qed.

Lemma quad23_lower : forall g2 g3 f c, increasing g2 -> increasing g3 ->
  (forall x y, In x g2 -> In y g3 -> c <= f x y) ->
  c * (last_node g2 - first_node g2) * (last_node g3 - first_node g3) <= quad23 g2 g3 f.
Proof. intros. rewrite <- quad23_const. apply quad23_mono; auto. Qed.

Lemma quad23_abs : forall g2 g3 f c, increasing g2 -> increasing g3 ->
  (forall x y, In x g2 -> In y g3 -> Rabs (f x y) <= c) ->
  Rabs (quad23 g2 g3 f) <= c * (last_node g2 - first_node g2) * (last_node g3 - first_node g3).
Proof.
  intros g2 g3 f c H2 H3 H. apply Rabs_le.
  assert (Hb : forall x y, In x g2 -> In y g3 -> - c <= f x y <= c)
    by (intros x y Hx Hy; specialize (H x y Hx Hy); unfold Rabs in H; destruct (Rcase_abs (f x y)); lra).
  split.
  - replace (- (c * (last_node g2 - first_node g2) * (last_node g3 - first_node g3)))
      with ((- c) * (last_node g2 - first_node g2) * (last_node g3 - first_node g3)) by ring.
    apply quad23_lower; try assumption. intros x y Hx Hy. apply (Hb x y Hx Hy).
  - rewrite <- quad23_const. apply quad23_mono; try assumption. intros x y Hx Hy. apply (Hb x y Hx Hy).
Qed.

Lemma quad23_reflect2 : forall g2 g3 f, symmetric g2 ->
  quad23 g2 g3 (fun x y => f (- x) y) = quad23 g2 g3 f.
Proof. intros. rewrite !quad23_T. apply (T_reflect g2 (fun k2 => T g3 (fun k3 => f k2 k3))). assumption. Qed.

Lemma quad23_reflect3 : forall g2 g3 f, symmetric g3 ->
  quad23 g2 g3 (fun x y => f x (- y)) = quad23 g2 g3 f.
Proof. intros. rewrite !quad23_T. apply T_ext. intros. apply (T_reflect g3 (fun k3 => f x k3)). assumption. Qed.

Lemma quad23_odd2 : forall g2 g3 f, symmetric g2 ->
  (forall x y, In x g2 -> In y g3 -> f (- x) y = - f x y) -> quad23 g2 g3 f = 0.
Proof.
  intros g2 g3 f Hs Ho. pose proof (quad23_reflect2 g2 g3 f Hs) as H.
  rewrite (quad23_ext g2 g3 (fun x y => f (- x) y) (fun x y => -1 * f x y)) in H.
  - rewrite quad23_scal in H. lra.
  - intros. rewrite Ho by assumption. ring.
Qed.

(** ** Clipping *)

Lemma eps_ops_pos : 0 < eps_ops.
Proof. unfold eps_ops. apply Rinv_0_lt_compat. lra. Qed.

Lemma eps_coh_pos : 0 < eps_coh.
Proof. unfold eps_coh. apply Rinv_0_lt_compat. lra. Qed.

Lemma clip_low_ge : forall eps x, eps <= clip_low eps x.
Proof. intros. unfold clip_low. destruct (Rlt_dec x eps); lra. Qed.

Lemma clip_low_close : forall eps x, 0 <= x -> Rabs (clip_low eps x - x) <= Rmax eps 0.
Proof.
  intros eps x Hx. unfold clip_low. destruct (Rlt_dec x eps) as [H|H].
  - rewrite Rabs_pos_eq by lra. eapply Rle_trans; [|apply Rmax_l]. lra.
  - replace (x - x) with 0 by ring. rewrite Rabs_R0. apply Rmax_r.
Qed.

Lemma clip_signed_close : forall eps x, 0 < eps -> Rabs (clip_signed eps x - x) <= eps.
Proof.
  intros eps x He. unfold clip_signed. destruct (Rlt_dec (Rabs x) eps) as [H|H].
  - unfold Rsign. apply Rabs_def2 in H. apply Rabs_le.
    destruct (Rlt_dec 0 x); [lra|]. destruct (Rlt_dec x 0); [lra|]. lra.
  - replace (x - x) with 0 by ring. rewrite Rabs_R0. lra.
Qed.

(** ** Forward evaluation *)

(** Entries which are clipped from below. *)
Definition low_clipped (sel : tensor6 -> R) : Prop :=
  sel = phi11 \/ sel = phi22 \/ sel = phi33 \/ sel = phi23 \/ sel = phi12.

Lemma low_clipped_ge : forall sel eps t, low_clipped sel -> eps <= sel (clip6 eps t).
Proof. intros sel eps t H. destruct H as [->|[->|[->|[->| ->]]]]; apply clip_low_ge. Qed.

Lemma forward_lower : forall sel e p1 p2 N k1, low_clipped sel -> p1 < p2 -> (2 <= N)%nat -> 0 < k1 ->
  k1 * (eps_ops * (2 * Rpower 10 p2)^2) <= ops_forward sel e p1 p2 N k1.
Proof.
  intros sel e p1 p2 N k1 Hsel Hp HN Hk. unfold ops_forward. cbv zeta.
  apply Rmult_le_compat_l; [lra|].
  pose proof (sym_grid_sorted p1 p2 N Hp) as Hs.
  eapply Rle_trans; [|apply (quad23_lower _ _ _ eps_ops Hs Hs)].
  - rewrite sym_grid_last, sym_grid_first by assumption. right. ring.
  - intros. unfold delivered, power_spectra. apply low_clipped_ge. assumption.
Qed.

Lemma forward_positive : forall sel e p1 p2 N k1, low_clipped sel -> p1 < p2 -> (2 <= N)%nat -> 0 < k1 ->
  0 < ops_forward sel e p1 p2 N k1.
Proof.
  intros sel e p1 p2 N k1 Hsel Hp HN Hk. eapply Rlt_le_trans; [|apply forward_lower; assumption].
  pose proof eps_ops_pos. pose proof (Rpower_pos 10 p2).
  apply Rmult_lt_0_compat; [assumption|]. apply Rmult_lt_0_compat; [assumption|]. apply pow_lt. lra.
Qed.

Lemma forward_raw_zero : forall sel e p1 p2 N k1, (sel = phi12 \/ sel = phi23) ->
  (forall a b c, oe_beta e a (- b) c = oe_beta e a b c) -> k1 <> 0 ->
  ops_forward_raw sel e p1 p2 N k1 = 0.
Proof.
  intros sel e p1 p2 N k1 Hsel Hb Hk. unfold ops_forward_raw. cbv zeta.
  rewrite quad23_odd2; [ring|apply sym_grid_symmetric|].
  intros x y _ _. unfold undelivered. rewrite Hb. set (b := oe_beta e k1 x y).
  replace (forward_energy (oe_spec e) (oe_M e) (oe_L e) b k1 (- x) y)
    with (forward_energy (oe_spec e) (oe_M e) (oe_L e) b k1 x y).
  - pose proof (raw_mirror (forward_energy (oe_spec e) (oe_M e) (oe_L e) b k1 x y) b k1 x y Hk) as H.
    cbv zeta in H. destruct H as (_ & _ & _ & _ & H12 & H23).
    destruct Hsel as [->| ->]; assumption.
  - unfold forward_energy. do 3 f_equal. unfold kk0_of. f_equal. f_equal. f_equal. ring.
Qed.

Lemma raw_sel_linear : forall sel c E0 b k1 k2 k3, selector sel ->
  sel (power_spectra_raw (c * E0) b k1 k2 k3) = c * sel (power_spectra_raw E0 b k1 k2 k3).
Proof.
  intros sel c E0 b k1 k2 k3 H.
  destruct H as [->|[->|[->|[->|[->| ->]]]]].
  - apply (raw_linear c E0 b k1 k2 k3 X1 X1).
  - apply (raw_linear c E0 b k1 k2 k3 X2 X2).
  - apply (raw_linear c E0 b k1 k2 k3 X3 X3).
  - apply (raw_linear c E0 b k1 k2 k3 X1 X3).
  - apply (raw_linear c E0 b k1 k2 k3 X2 X3).
  - apply (raw_linear c E0 b k1 k2 k3 X1 X2).
Qed.

Lemma forward_raw_linear : forall sel c e p1 p2 N k1, selector sel ->
  ops_forward_raw sel (scale_M c e) p1 p2 N k1 = c * ops_forward_raw sel e p1 p2 N k1.
Proof.
  intros sel c e p1 p2 N k1 Hsel. unfold ops_forward_raw. cbv zeta.
  rewrite (quad23_ext _ _ _ (fun k2 k3 => c * undelivered sel e k1 k2 k3)).
  - rewrite (quad23_scal _ _ (fun k2 k3 => undelivered sel e k1 k2 k3)). ring.
  - intros x y _ _. unfold undelivered. cbn [oe_beta oe_M oe_L oe_spec scale_M].
    rewrite <- raw_sel_linear by assumption. f_equal. f_equal. unfold forward_energy. cbv zeta. ring.
Qed.

Lemma energy_nonneg : forall spec M L b k1 k2 k3, (forall x, 0 < x -> 0 <= spec x) -> 0 <= M -> 0 < L -> k1 <> 0 ->
  0 <= forward_energy spec M L b k1 k2 k3.
Proof.
  intros spec M L b k1 k2 k3 Hs HM HL Hk. unfold forward_energy. cbv zeta.
  apply Rmult_le_pos.
  - apply Rmult_le_pos; [assumption|]. left. apply Rpower_pos.
  - apply Hs. apply Rmult_lt_0_compat; [assumption|]. apply sqrt_lt_R0. apply kk0_pos. assumption.
Qed.

Lemma raw_auto_nonneg : forall sel E0 b k1 k2 k3, auto sel -> k1 <> 0 -> 0 <= E0 ->
  0 <= sel (power_spectra_raw E0 b k1 k2 k3).
Proof.
  intros sel E0 b k1 k2 k3 H Hk HE. destruct H as [->|[->| ->]].
  - exact (proj1 (raw_schwarz E0 b k1 k2 k3 X1 X1 Hk HE)).
  - exact (proj1 (raw_schwarz E0 b k1 k2 k3 X2 X2 Hk HE)).
  - exact (proj1 (raw_schwarz E0 b k1 k2 k3 X3 X3 Hk HE)).
Qed.

Lemma forward_raw_nonneg : forall sel e p1 p2 N k1, auto sel -> 0 < k1 -> p1 < p2 ->
  (forall x, 0 < x -> 0 <= oe_spec e x) -> 0 <= oe_M e -> 0 < oe_L e ->
  0 <= ops_forward_raw sel e p1 p2 N k1.
Proof.
  intros sel e p1 p2 N k1 Ha Hk Hp Hs HM HL. unfold ops_forward_raw. cbv zeta.
  apply Rmult_le_pos; [lra|].
  pose proof (sym_grid_sorted p1 p2 N Hp) as Hg.
  pose proof (quad23_lower _ _ (fun k2 k3 => undelivered sel e k1 k2 k3) 0 Hg Hg) as H.
  assert (0 * (last_node (sym_grid p1 p2 N) - first_node (sym_grid p1 p2 N))
          * (last_node (sym_grid p1 p2 N) - first_node (sym_grid p1 p2 N)) = 0) by ring.
  rewrite H0 in H. apply H. intros. unfold undelivered. cbv zeta.
  apply raw_auto_nonneg; [assumption|lra|]. apply energy_nonneg; try assumption. lra.
Qed.

Lemma forward_clip_error : forall sel e p1 p2 N k1,
  (auto sel \/ sel = phi13) -> 0 < k1 -> p1 < p2 -> (2 <= N)%nat ->
  (forall x, 0 < x -> 0 <= oe_spec e x) -> 0 <= oe_M e -> 0 < oe_L e ->
  Rabs (ops_forward sel e p1 p2 N k1 - ops_forward_raw sel e p1 p2 N k1)
  <= k1 * (eps_ops * (2 * Rpower 10 p2)^2).
Proof.
  intros sel e p1 p2 N k1 Hsel Hk Hp HN Hs HM HL. unfold ops_forward, ops_forward_raw. cbv zeta.
  set (g := sym_grid p1 p2 N).
  replace (k1 * quad23 g g (fun k2 k3 => delivered sel e k1 k2 k3)
           - k1 * quad23 g g (fun k2 k3 => undelivered sel e k1 k2 k3))
    with (k1 * quad23 g g (fun k2 k3 => 1 * delivered sel e k1 k2 k3 + (-1) * undelivered sel e k1 k2 k3))
    by (rewrite (quad23_linear g g (fun k2 k3 => delivered sel e k1 k2 k3) (fun k2 k3 => undelivered sel e k1 k2 k3)); ring).
  rewrite Rabs_mult, (Rabs_pos_eq k1) by lra. apply Rmult_le_compat_l; [lra|].
  pose proof (sym_grid_sorted p1 p2 N Hp) as Hg. fold g in Hg.
  eapply Rle_trans; [apply (quad23_abs g g _ eps_ops Hg Hg)|].
  - intros x y _ _.
    replace (1 * delivered sel e k1 x y + -1 * undelivered sel e k1 x y)
      with (delivered sel e k1 x y - undelivered sel e k1 x y) by ring.
    unfold delivered, undelivered, power_spectra. cbv zeta.
    set (b := oe_beta e k1 x y). set (E := forward_energy _ _ _ _ _ _ _).
    assert (HE : 0 <= E) by (apply energy_nonneg; try assumption; lra).
    assert (Hk' : k1 <> 0) by lra.
    assert (Hm : Rmax eps_ops 0 = eps_ops) by (apply Rmax_left; left; apply eps_ops_pos).
    destruct Hsel as [Ha| ->].
    + pose proof (raw_auto_nonneg sel E b k1 x y Ha Hk' HE) as Hn.
      rewrite <- Hm at 2. destruct Ha as [->|[->| ->]]; cbn [phi11 phi22 phi33 clip6];
        apply clip_low_close; assumption.
    + cbn [phi13 clip6]. apply clip_signed_close. apply eps_ops_pos.
  - unfold g. rewrite sym_grid_last, sym_grid_first by assumption. right. ring.
Qed.

(** ** Complex trapezoid *)

(** Complex trapezoid of the values of a function. *)
Definition TC (g : list R) (f : R -> C) : C := trapzC g (map f g).

Lemma TC_cons2 : forall a b l f,
  TC (a :: b :: l) f = Cplus (Cmult (RtoC ((b - a) / 2)) (Cplus (f a) (f b))) (TC (b :: l) f).
Proof. reflexivity. Qed.

Lemma TC_re : forall g f, fst (TC g f) = T g (fun x => fst (f x)).
Proof.
  induction g as [|x g IH]; intro f; [reflexivity|]. destruct g as [|y g]; [reflexivity|].
  rewrite TC_cons2, T_cons2, <- IH. unfold Cplus, Cmult, RtoC. cbn [fst snd]. field.
Qed.

Lemma TC_im : forall g f, snd (TC g f) = T g (fun x => snd (f x)).
Proof.
  induction g as [|x g IH]; intro f; [reflexivity|]. destruct g as [|y g]; [reflexivity|].
  rewrite TC_cons2, T_cons2, <- IH. unfold Cplus, Cmult, RtoC. cbn [fst snd]. field.
Qed.

Lemma TC_mod : forall g f, increasing g -> Cmod (TC g f) <= T g (fun x => Cmod (f x)).
Proof.
  induction g as [|x g IH]; intros f Hs; [unfold TC, T; simpl; rewrite Cmod_0; lra|].
  destruct g as [|y g]; [unfold TC, T; simpl; rewrite Cmod_0; lra|].
  rewrite TC_cons2, T_cons2. pose proof (increasing_head _ _ _ Hs) as Hxy.
  eapply Rle_trans; [apply Cmod_triangle|]. apply Rplus_le_compat; [|apply IH; eapply increasing_tail; eassumption].
  rewrite Cmod_mult, Cmod_R, Rabs_pos_eq by lra.
  pose proof (Cmod_triangle (f x) (f y)). nra.
Qed.

Lemma quad23C_re : forall g2 g3 f, fst (quad23C g2 g3 f) = quad23 g2 g3 (fun x y => fst (f x y)).
Proof.
  intros. change (quad23C g2 g3 f) with (TC g2 (fun k2 => TC g3 (fun k3 => f k2 k3))).
  rewrite TC_re, quad23_T. apply T_ext. intros. apply TC_re.
Qed.

Lemma quad23C_im : forall g2 g3 f, snd (quad23C g2 g3 f) = quad23 g2 g3 (fun x y => snd (f x y)).
Proof.
  intros. change (quad23C g2 g3 f) with (TC g2 (fun k2 => TC g3 (fun k3 => f k2 k3))).
  rewrite TC_im, quad23_T. apply T_ext. intros. apply TC_im.
Qed.

Lemma quad23C_mod : forall g2 g3 f, increasing g2 -> increasing g3 ->
  Cmod (quad23C g2 g3 f) <= quad23 g2 g3 (fun x y => Cmod (f x y)).
Proof.
  intros g2 g3 f H2 H3. change (quad23C g2 g3 f) with (TC g2 (fun k2 => TC g3 (fun k3 => f k2 k3))).
  eapply Rle_trans; [apply TC_mod; assumption|]. rewrite quad23_T. apply T_mono; [assumption|].
  intros. apply TC_mod. assumption.
Qed.

Lemma Cmod_phase : forall k r, Cmod (phase k r) = 1.
Proof.
  intros. unfold Cmod, phase. cbn [fst snd].
  replace (cos (k * r) ^ 2 + sin (k * r) ^ 2) with 1; [apply sqrt_1|].
  pose proof (sin2_cos2 (k * r)) as H. unfold Rsqr in H. lra.
Qed.

(** ** Coherence *)

Lemma coh_entry_pos : forall sel e k1 k2 k3, low_clipped sel -> eps_coh <= coh_entry sel e k1 k2 k3.
Proof. intros. unfold coh_entry, power_spectra_coherence. apply low_clipped_ge. assumption. Qed.

Lemma auto_low : forall sel, auto sel -> low_clipped sel.
Proof. unfold auto, low_clipped. tauto. Qed.

Lemma increasing_two : forall g, increasing g -> (2 <= length g)%nat -> first_node g < last_node g.
Proof.
  intros [|x [|y g]] Hs Hl; simpl in Hl; try lia.
  pose proof (increasing_head _ _ _ Hs). pose proof (last_ge_first _ (increasing_tail _ _ Hs)) as H1.
  unfold first_node, last_node in *. change (last (x :: y :: g) 0) with (last (y :: g) 0). cbn [hd] in *. lra.
Qed.

Lemma coh_S0_pos : forall g sel e k1, increasing g -> (2 <= length g)%nat -> low_clipped sel ->
  0 < quad23 g g (fun k2 k3 => coh_entry sel e k1 k2 k3).
Proof.
  intros g sel e k1 Hs Hl Hsel.
  pose proof (increasing_two g Hs Hl) as Hd. pose proof eps_coh_pos as He.
  eapply Rlt_le_trans; [|apply (quad23_lower g g _ eps_coh Hs Hs)].
  - apply Rmult_lt_0_compat; [apply Rmult_lt_0_compat|]; lra.
  - intros. apply coh_entry_pos. assumption.
Qed.

Lemma coherence_range : forall g sel e k1 r, increasing g -> (2 <= length g)%nat -> auto sel ->
  0 <= coherence_on g sel e k1 r <= 1.
Proof.
  intros g sel e k1 r Hs Hl Ha. unfold coherence_on. cbv zeta.
  pose proof (coh_S0_pos g sel e k1 Hs Hl (auto_low _ Ha)) as H0.
  set (S0 := quad23 g g (fun k2 k3 => coh_entry sel e k1 k2 k3)) in *.
  set (Sr := quad23C _ _ _).
  assert (HSr : Cmod Sr <= S0).
  { unfold Sr. eapply Rle_trans; [apply quad23C_mod; assumption|]. right.
    apply quad23_ext. intros. rewrite Cmod_mult, Cmod_R, Cmod_phase, Rabs_pos_eq; [ring|].
    pose proof (coh_entry_pos sel e k1 x y (auto_low _ Ha)). pose proof eps_coh_pos. lra. }
  pose proof (Cmod_ge_0 Sr). rewrite Rabs_pos_eq by lra.
  assert (Hp : 0 < S0 ^ 2) by (apply pow_lt; assumption).
  split.
  - apply Rmult_le_pos; [apply pow2_ge_0|left; apply Rinv_0_lt_compat; assumption].
  - apply (Rmult_le_reg_r (S0 ^ 2)); [assumption|]. unfold Rdiv. rewrite Rmult_assoc, Rinv_l by lra. nra.
Qed.

Lemma phase_zero : forall k, phase k 0 = RtoC 1.
Proof. intro. unfold phase. rewrite Rmult_0_r, cos_0, sin_0. reflexivity. Qed.

Lemma coherence_zero_sep : forall g sel e k1, increasing g -> (2 <= length g)%nat -> auto sel ->
  coherence_on g sel e k1 0 = 1.
Proof.
  intros g sel e k1 Hs Hl Ha. unfold coherence_on. cbv zeta.
  pose proof (coh_S0_pos g sel e k1 Hs Hl (auto_low _ Ha)) as H0.
  set (S0 := quad23 g g (fun k2 k3 => coh_entry sel e k1 k2 k3)) in *.
  replace (quad23C _ _ _) with (RtoC S0).
  - rewrite Cmod_R. field. rewrite Rabs_pos_eq; lra.
  - symmetry. apply injective_projections.
    + rewrite quad23C_re. unfold S0. apply quad23_ext. intros. rewrite phase_zero.
      unfold Cmult, RtoC. cbn [fst snd]. ring.
    + rewrite quad23C_im. cbn [snd RtoC].
      rewrite (quad23_ext _ _ _ (fun _ _ => 0)).
      * rewrite quad23_const. ring.
      * intros. rewrite phase_zero. unfold Cmult, RtoC. cbn [fst snd]. ring.
Qed.

Lemma coherence_even : forall g sel e k1 r, coherence_on g sel e k1 (- r) = coherence_on g sel e k1 r.
Proof.
  intros. unfold coherence_on. cbv zeta. f_equal. f_equal.
  set (A := quad23C g g _). set (B := quad23C g g _).
  assert (H1 : fst A = fst B).
  { unfold A, B. rewrite !quad23C_re. apply quad23_ext. intros. unfold Cmult, RtoC, phase. cbn [fst snd].
    rewrite Ropp_mult_distr_r_reverse, cos_neg. ring. }
  assert (H2 : snd A = - snd B).
  { unfold A, B. rewrite !quad23C_im.
    rewrite <- (Rmult_1_l (quad23 g g (fun x y => snd (RtoC (coh_entry sel e k1 x y) * phase x r)%C))).
    rewrite Ropp_mult_distr_l. rewrite <- quad23_scal. apply quad23_ext. intros.
    unfold Cmult, RtoC, phase. cbn [fst snd]. rewrite Ropp_mult_distr_r_reverse, sin_neg. ring. }
  unfold Cmod. rewrite H1, H2. f_equal. ring.
Qed.

Lemma network_built : forall A (relu : A) p learn c,
  ops_network relu p learn = Ok c ->
  exists z, nlayers p = IsInt z /\ (0 < z)%Z /\ (0 < hidden_layer_size p)%Z
  /\ tc_sizes c = repeat (Z.to_nat (hidden_layer_size p)) (Z.to_nat z)
  /\ tc_acts c = repeat relu (Z.to_nat z)
  /\ tc_learn_nu c = learn /\ tc_nu c = -1/3.
Proof.
  intros A relu p learn c H. unfold ops_network in H.
  destruct (taunet_init_documented A relu (nlayers p) (SizeInt (hidden_layer_size p)) ActNone learn nu_default)
    as [Hacc [Hdoc _]].
  destruct (Hdoc c H) as [z [En [Hz [Hs Ha]]]].
  destruct (Hacc z _ _ En Hz Hs Ha) as [c' [E [_ [_ [E3 E4]]]]].
  rewrite H in E. injection E as <-.
  exists z. destruct Hs as [Hh Hs]. unfold nu_default in E4. tauto.
Qed.
