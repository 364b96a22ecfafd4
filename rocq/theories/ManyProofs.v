(** Continuous functions of several parameters have minima on boxes. *)

From Coq Require Import Reals Lra Lia List Classical.
From Coquelicot Require Import Coquelicot.
From Verif Require Import ManySpec.
From Verif Require Import Prelude RdtModel SpectraModel OpsModel LossModel HypSpec HypProofs SensSpec SensProofs SensFinal.
Import ListNotations.
Open Scope R_scope.

(** From small intervals to a whole one. *)
Lemma creeping : forall (P : R -> R -> Prop) a b, a <= b ->
  (forall x, a <= x <= b -> exists d, 0 < d /\ forall u v, a <= u <= v -> v <= b -> x - d < u -> v < x + d -> P u v) ->
  (forall u v w, u <= v <= w -> P u v -> P v w -> P u w) -> P a b.
Proof.
  intros P a b Hab L J.
  set (E := fun s => a <= s <= b /\ P a s).
  assert (Ea : E a).
  { split; [lra|]. destruct (L a) as (d & Hd & H); [lra|]. apply H; lra. }
  destruct (completeness E) as (m & U & M).
  - exists b. intros s [Hs _]. lra.
  - exists a. exact Ea.
  - assert (Hm : a <= m <= b) by (split; [apply U; exact Ea|apply M; intros s [Hs _]; lra]).
    destruct (L m Hm) as (d & Hd & H).
    assert (S : exists s, E s /\ m - d < s).
    { apply NNPP. intros N. assert (m <= m - d); [|lra]. apply M. intros s Es. apply Rnot_lt_le. intros Q. apply N. exists s. split; assumption. }
    destruct S as (s & [Hs Ps] & Q). assert (Sm : s <= m) by (apply U; split; assumption).
    set (t := Rmin b (m + d / 2)). assert (T : s <= t <= b /\ t < m + d).
    { unfold t. split; [split; [apply Rmin_glb; lra|apply Rmin_l]|]. apply Rle_lt_trans with (m + d / 2); [apply Rmin_r|lra]. }
    assert (Et : P a t) by (apply (J a s t); [lra|exact Ps|apply H; lra]).
    assert (t <= m) by (apply U; split; [lra|exact Et]).
    assert (t = b).
    { unfold t, Rmin in *. destruct (Rle_dec b (m + d / 2)); [reflexivity|lra]. }
    congruence.
Qed.

Definition clamp (a b x : R) : R := Rmax a (Rmin b x).

Lemma clamp_in : forall a b x, a <= b -> a <= clamp a b x <= b.
Proof. intros a b x H. unfold clamp, Rmax, Rmin. destruct (Rle_dec b x), (Rle_dec a _); lra. Qed.

Lemma clamp_id : forall a b x, a <= x <= b -> clamp a b x = x.
Proof. intros a b x H. unfold clamp, Rmax, Rmin. destruct (Rle_dec b x), (Rle_dec a _); lra. Qed.

Lemma clamp_near : forall a b x y, a <= b -> Rabs (clamp a b x - clamp a b y) <= Rabs (x - y).
Proof. intros a b x y H. unfold clamp, Rmax, Rmin, Rabs. destruct (Rle_dec b x), (Rle_dec b y); repeat destruct (Rle_dec a _); repeat destruct (Rcase_abs _); lra. Qed.

(** What is known about one fibre: the minimum is attained, nearby fibres are not much lower, and the
    place of the minimum is not much higher nearby. *)
Definition low_point {W : UniformSpace} {T : Type} (f : W -> T -> R) (box : T -> Prop) (w : W) (y : T) : Prop :=
  box y /\ (forall z, box z -> f w y <= f w z) /\ forall eps, 0 < eps -> locally w (fun v => forall z, box z -> f w y - eps < f v z).

Lemma lift_low : forall (W : UniformSpace) (T : Type) (f : W -> R -> T -> R) (box : T -> Prop) a b w, a <= b ->
  (forall x, a <= x <= b -> exists y, low_point (fun (z : prod_UniformSpace W R_UniformSpace) => f (fst z) (snd z)) box (w, x) y
     /\ forall eps, 0 < eps -> locally x (fun u => f w u y < f w x y + eps)) ->
  exists xy, low_point (fun v (xy : R * T) => f v (fst xy) (snd xy)) (fun xy => a <= fst xy <= b /\ box (snd xy)) w xy.
Proof.
  intros W T f box a b w Hab H.
  set (m := fun x => real (Glb_Rbar (fun v => exists y, box y /\ v = f w x y))).
  assert (M : forall x, a <= x <= b -> forall y, box y -> (forall z, box z -> f w x y <= f w x z) -> m x = f w x y).
  { intros x Hx y By Hy. unfold m. rewrite (is_glb_Rbar_unique _ (f w x y)); [reflexivity|]. split.
    - intros v (z & Bz & ->). cbn. apply Hy. exact Bz.
    - intros l Hl. apply Hl. exists y. split; [exact By|reflexivity]. }
  assert (C : forall c, a <= c <= b -> continuity_pt (fun x => m (clamp a b x)) c).
  { intros c Hc. set (x := clamp a b c). assert (Hx : a <= x <= b) by (apply clamp_in; exact Hab).
    destruct (H x Hx) as (y & (By & My & Ly) & Uy).
    intros eps He. destruct (Ly eps He) as [d1 D1]. destruct (Uy eps He) as [d2 D2].
    exists (Rmin d1 d2). split; [apply Rmin_pos; [apply d1|apply d2]|]. intros u [_ Hu]. cbn in Hu. unfold R_dist in *. cbn. unfold R_dist.
    set (x' := clamp a b u). assert (Hx' : a <= x' <= b) by (apply clamp_in; exact Hab).
    assert (N : Rabs (x' - x) < Rmin d1 d2) by (eapply Rle_lt_trans; [apply clamp_near; exact Hab|exact Hu]).
    destruct (H x' Hx') as (y' & (By' & My' & _) & _). fold x.
    rewrite (M x Hx y By My), (M x' Hx' y' By' My').
    assert (A1 : f w x y - eps < f w x' y').
    { apply (D1 (w, x')); [|exact By']. split; [apply ball_center|]. cbn. eapply Rlt_le_trans; [exact N|apply Rmin_l]. }
    assert (A2 : f w x' y < f w x y + eps).
    { apply D2. eapply Rlt_le_trans; [exact N|apply Rmin_r]. }
    pose proof (My' y By) as A3. cbn in A3. apply Rabs_def1; lra. }
  destruct (continuity_ab_min _ a b Hab C) as (x0 & Mx & Hx0). rewrite (clamp_id a b x0 Hx0) in Mx.
  destruct (H x0 Hx0) as (y0 & (B0 & M0 & _) & _). cbn in M0. exists (x0, y0).
  assert (ALL : forall x z, a <= x <= b -> box z -> f w x0 y0 <= f w x z).
  { intros x z Hx Bz. destruct (H x Hx) as (y & (By & My & _) & _). cbn in My.
    pose proof (Mx x Hx) as Q. rewrite (clamp_id a b x Hx), (M x0 Hx0 y0 B0 M0), (M x Hx y By My) in Q.
    eapply Rle_trans; [exact Q|apply My; exact Bz]. }
  split; [|split]; cbn [fst snd].
  - split; [exact Hx0|exact B0].
  - intros [x z] [Hx Bz]. apply ALL; assumption.
  - intros eps He.
    assert (G : locally w (fun v => forall x, a <= x <= b -> forall z, box z -> f w x0 y0 - eps < f v x z)).
    { apply (creeping (fun s t => locally w (fun v => forall x, s <= x <= t -> forall z, box z -> f w x0 y0 - eps < f v x z)) a b Hab).
      - intros x Hx. destruct (H x Hx) as (y & (By & My & Ly) & _). destruct (Ly eps He) as [d D]. exists d. split; [apply d|].
        intros s t Hst Ht Hs1 Ht1. exists d. intros v Hv u Hu z Bz. pose proof (ALL x y Hx By).
        assert (Q : f w x y - eps < f v u z); [|lra]. apply (D (v, u)); [|exact Bz]. split; [exact Hv|]. cbn.
        change (Rabs (u - x) < d). apply Rabs_def1; lra.
      - intros s t r Hstr A B. generalize (filter_and _ _ A B). apply filter_imp. intros v [A1 B1] x Hx z Bz.
        destruct (Rle_dec x t); [apply A1; [lra|exact Bz]|apply B1; [lra|exact Bz]]. }
    revert G. apply filter_imp. intros v Q [x z] [Hx Bz]. apply Q; assumption.
Qed.

Lemma box_low : forall n (W : UniformSpace) (f : W -> vectors n -> R) a b w, in_box n a b a ->
  (forall y, in_box n a b y -> continuous (fun z : prod_UniformSpace W (vectors n) => f (fst z) (snd z)) (w, y)) ->
  exists y, low_point f (in_box n a b) w y.
Proof.
  induction n as [|n IH]; intros W f a b w Hab C.
  - destruct (lift_low W unit (fun v x _ => f v x) (fun _ => True) a b w) as ((x & []) & B & M & L).
    + cbn in Hab. cbn. lra.
    + intros x Hx. exists tt. pose proof (C x Hx) as Cx. split.
      * split; [exact I|]. split; [intros z _; apply Rle_refl|]. intros eps He.
        destruct (Cx (fun r => f w x - eps < r)) as [d D]; [exists (mkposreal eps He); intros r Hr; apply Rabs_def2 in Hr; cbn in *; unfold minus, plus, opp in Hr; cbn in Hr; lra|].
        exists d. intros z Hz _ _. apply (D z Hz).
      * intros eps He.
        destruct (Cx (fun r => r < f w x + eps)) as [d D]; [exists (mkposreal eps He); intros r Hr; apply Rabs_def2 in Hr; cbn in *; unfold minus, plus, opp in Hr; cbn in Hr; lra|].
        exists d. intros u Hu. apply (D (w, u)). split; [apply ball_center|exact Hu].
    + cbn [fst snd] in *. exists x. split; [exact (proj1 B)|]. split.
      * intros z Hz. apply (M (z, tt)). cbn. tauto.
      * intros eps He. generalize (L eps He). apply filter_imp. intros v Q z Hz. apply (Q (z, tt)). cbn. tauto.
  - destruct (lift_low W (vectors n) (fun v x y => f v (x, y)) (in_box n (snd a) (snd b)) (fst a) (fst b) w) as ((x & y) & B & M & L).
    + exact (proj2 (proj1 Hab)).
    + intros x Hx. destruct (IH (prod_UniformSpace W R_UniformSpace) (fun z y => f (fst z) (snd z, y)) (snd a) (snd b) (w, x)) as (y & By & My & Ly).
      * cbn in Hab. tauto.
      * intros y By. cbn [fst snd]. intros P HP.
        assert (Cy : continuous (fun z : prod_UniformSpace W (vectors (S n)) => f (fst z) (snd z)) (w, (x, y))) by (apply C; cbn; tauto).
        destruct (Cy P HP) as [d D]. exists d. intros [[v u] z] [[H1 H2] H3]. cbn in *. apply (D (v, (u, z))). split; [exact H1|]. split; [exact H2|exact H3].
      * exists y. split; [split; [exact By|split; [exact My|exact Ly]]|]. intros eps He.
        assert (Cy : continuous (fun z : prod_UniformSpace W (vectors (S n)) => f (fst z) (snd z)) (w, (x, y))) by (apply C; cbn; tauto).
        destruct (Cy (fun r => r < f w (x, y) + eps)) as [d D].
        { exists (mkposreal eps He). intros r Hr. apply Rabs_def2 in Hr. cbn in *. unfold minus, plus, opp in Hr. cbn in Hr. lra. }
        exists d. intros u Hu. apply (D (w, (u, y))). split; [apply ball_center|]. split; [exact Hu|apply ball_center].
    + cbn [fst snd] in *. exists (x, y). split; [cbn; tauto|]. split.
      * intros [x' y'] Hz. apply (M (x', y')). cbn in *. tauto.
      * intros eps He. generalize (L eps He). apply filter_imp. intros v Q [x' y'] Hz. apply (Q (x', y')). cbn in *. tauto.
Qed.

Lemma box_minimum : forall n (f : vectors n -> R) a b, in_box n a b a -> (forall y, in_box n a b y -> continuous f y) ->
  exists y, in_box n a b y /\ forall z, in_box n a b z -> f y <= f z.
Proof.
  intros n f a b Hab C. destruct (box_low n R_UniformSpace (fun _ y => f y) a b 0 Hab) as (y & B & M & _).
  - intros y By. apply (continuous_comp (fun z : prod_UniformSpace R_UniformSpace (vectors n) => snd z) f); [apply continuous_snd|apply C; exact By].
  - exists y. split; [exact B|exact M].
Qed.

Lemma box_in : forall n (a b y : vectors n), in_box n a b y -> in_box n a b a.
Proof.
  induction n as [|n IH]; intros a b y H.
  - cbn in *. destruct H as [H1 H2]. split; [apply Rle_refl|]. eapply Rle_trans; [exact H1|exact H2].
  - destruct H as [[H1 H2] H3]. split; [split; [apply Rle_refl|eapply Rle_trans; [exact H1|exact H2]]|]. apply (IH _ _ _ H3).
Qed.

Lemma misfit_box : forall n (e : vectors n -> ops_env) a b p1 p2 N ks target, (exists y, in_box n a b y) -> ks <> [] ->
  (forall k q, In k ks -> in_box n a b q -> 0 < k /\ steady e k q) -> p1 < p2 -> (2 <= N)%nat ->
  length target = (3 * length ks)%nat -> (forall v, In v target -> v <> 0) ->
  let rows q := map (fun sel => map (fun k => ops_forward sel (e q) p1 p2 N k) ks) [phi11; phi22; phi33] in
  exists best low, in_box n a b best /\ LossModel.mse_term (concat (rows best)) target = Ok (Fin low)
  /\ forall q, in_box n a b q -> exists v, LossModel.mse_term (concat (rows q)) target = Ok (Fin v) /\ low <= v.
Proof.
  intros n e a b p1 p2 N ks target (y & Hy) Hne Hks Hp HN Hlen Htz. cbv zeta. pose proof (box_in n a b y Hy) as Hab.
  assert (H : forall p, in_box n a b p -> exists v : vectors n -> R, continuous v p /\ forall q, LossModel.mse_term (concat (map (fun sel => map (fun k => ops_forward sel (e q) p1 p2 N k) ks) [phi11; phi22; phi33])) target = Ok (Fin (v q))).
  { intros p Hpab. apply (misfit_steady (vectors n)); try assumption. intros k Hk. apply Hks; assumption. }
  destruct (H a Hab) as (v & _ & Hv).
  assert (Cv : forall p, in_box n a b p -> continuous v p).
  { intros p Hpab. destruct (H p Hpab) as (w & Cw & Hw). apply (continuous_ext w); [|exact Cw]. intros q. specialize (Hw q). rewrite Hv in Hw. injection Hw as Hw. symmetry. exact Hw. }
  destruct (box_minimum n v a b Hab Cv) as (best & Hin & Hmin). exists best, (v best). split; [exact Hin|]. split; [apply Hv|]. intros q Hq. exists (v q). split; [apply Hv|apply Hmin; exact Hq].
Qed.

(** The misfit of the Mann model in the logarithms of its three scales. *)
Lemma mann_box : forall hyp (beta : vectors 2 -> R -> R -> R -> R) a b p1 p2 N ks target, hypergeometric hyp ->
  (forall q k1 k2 k3, k1 <> 0 -> eddy_lifetime (LEnv MANN (exp (fst q)) (exp (fst (snd q))) hyp 0 0 (fun _ => Err RuntimeError)) k1 k2 k3 = Ok (beta q k1 k2 k3)) ->
  (exists y, in_box 2 a b y) -> ks <> [] -> (forall k, In k ks -> 0 < k) -> p1 < p2 -> (2 <= N)%nat ->
  length target = (3 * length ks)%nat -> (forall v, In v target -> v <> 0) ->
  let rows q := map (fun sel => map (fun k => ops_forward sel (OpsEnv (exp (fst q)) (exp (snd (snd q))) vklike_energy (beta q)) p1 p2 N k) ks) [phi11; phi22; phi33] in
  exists best low, in_box 2 a b best /\ LossModel.mse_term (concat (rows best)) target = Ok (Fin low)
  /\ forall q, in_box 2 a b q -> exists v, LossModel.mse_term (concat (rows q)) target = Ok (Fin v) /\ low <= v.
Proof.
  intros hyp beta a b p1 p2 N ks target HH HB Hy Hne Hks Hp HN Hlen Htz.
  apply (misfit_box 2 (fun q : vectors 2 => OpsEnv (exp (fst q)) (exp (snd (snd q))) vklike_energy (beta q))); try assumption.
  intros k q Hk _. split; [apply Hks; exact Hk|]. specialize (Hks k Hk).
  assert (C1 : continuous (fun q : vectors 2 => fst q : R) q) by (destruct q as [x y]; apply (continuous_fst (U := R_UniformSpace) (V := vectors 1))).
  assert (C2 : continuous (fun q : vectors 2 => snd q) q) by (destruct q as [x y]; apply (continuous_snd (U := R_UniformSpace) (V := vectors 1))).
  assert (C3 : continuous (fun q : vectors 2 => fst (snd q) : R) q).
  { apply (continuous_comp (fun q : vectors 2 => snd q) (fun y : vectors 1 => fst y : R)); [exact C2|]. destruct (snd q) as [x y]. apply (continuous_fst (U := R_UniformSpace) (V := R_UniformSpace)). }
  assert (C4 : continuous (fun q : vectors 2 => snd (snd q) : R) q).
  { apply (continuous_comp (fun q : vectors 2 => snd q) (fun y : vectors 1 => snd y : R)); [exact C2|]. destruct (snd q) as [x y]. apply (continuous_snd (U := R_UniformSpace) (V := R_UniformSpace)). }
  assert (CE : forall f : vectors 2 -> R, continuous f q -> continuous (fun q => exp (f q)) q).
  { intros f Cf. apply (continuous_comp f exp); [exact Cf|]. apply continuity_pt_filterlim. apply derivable_continuous_pt, derivable_pt_exp. }
  refine (proj2 (mann_steady (vectors 2) MANN (fun q => exp (fst q)) (fun q => exp (fst (snd q))) (fun q => exp (snd (snd q)))
     (fun _ => 0) (fun _ => 0) (fun _ => 0) (fun _ => 0) hyp (fun _ => Err RuntimeError) beta q k _ _ _ _ _ _ _ _ _ _ _ _));
    try apply continuous_const; try (apply CE; assumption).
  - discriminate.
  - apply exp_pos.
  - lra.
  - intros _ t Hneg. split.
    + apply continuity_pt_filterlim. apply (continuous_ext_loc _ euler_integral).
      * assert (Hm : 0 < - t) by lra. exists (mkposreal (- t) Hm). intros w Hw. symmetry. apply HH.
        unfold ball in Hw; simpl in Hw; unfold AbsRing_ball, abs, minus, plus, opp in Hw; simpl in Hw. apply Rabs_def2 in Hw. lra.
      * apply continuity_pt_filterlim. apply euler_continuous. assumption.
    + rewrite HH by assumption. apply euler_pos. lra.
  - intros w x y. apply HB. lra.
Qed.
