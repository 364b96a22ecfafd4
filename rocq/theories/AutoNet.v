(** Derivatives of norms, networks and lifetimes. *)

From Coq Require Import Reals Lra Lia List Arith.
From Coquelicot Require Import Coquelicot.
From Verif Require Import Prelude RdtModel SpectraModel RdtSpec RdtProofs RdtOde SpectraProofs OpsModel OpsSpec OpsProofs LossModel TotalSpec AutoModel AutoSpec AutoProofs.
Import ListNotations.
Open Scope R_scope.

Definition ats (fs : list (R -> R)) (t : R) : list R := map (fun f => f t) fs.

Lemma ats_zero : forall fs ds, List.Forall2 tracks fs ds -> ats fs 0 = map val ds.
Proof. intros fs ds H. induction H as [|f d fs ds [V _] _ IH]; [reflexivity|]. cbn. rewrite V. f_equal. exact IH. Qed.

Lemma ats_length : forall fs t, length (ats fs t) = length fs.
Proof. intros. apply map_length. Qed.

Lemma moved_all : forall (r : list dual), List.Forall2 tracks (map (fun d t => moved t d) r) r.
Proof. induction r as [|d r IH]; constructor; [apply tracks_moved|exact IH]. Qed.

Lemma ats_moved : forall r t, ats (map (fun d t => moved t d) r) t = map (moved t) r.
Proof. intros. unfold ats. rewrite map_map. reflexivity. Qed.

Lemma sumsq_tracks : forall fs ds, List.Forall2 tracks fs ds ->
  tracks (fun t => Rsum (map (fun a => a^2) (ats fs t)))
         (Dual (Rsum (map (fun a => val a ^ 2) ds)) (Rsum (map (fun a => der a * (2 * val a)) ds))).
Proof.
  intros fs ds H. induction H as [|f d fs ds Hf _ IH]; [apply (tracks_const 0)|].
  exact (tracks_add (fun t => f t ^ 2) _ (dsq d) _ (tracks_sq f d Hf) IH).
Qed.

Lemma Rsum_scale : forall (A : Type) (f : A -> R) c l, Rsum (map (fun a => f a * c) l) = Rsum (map f l) * c.
Proof. intros A f c l. unfold Rsum. induction l as [|a l IH]; cbn [map fold_right]; [ring|]. rewrite IH. ring. Qed.

Lemma sumsq_nonneg : forall l, 0 <= Rsum (map (fun a => a^2) l).
Proof. unfold Rsum. induction l as [|a l IH]; cbn [map fold_right]; [lra|]. pose proof (pow2_ge_0 a). lra. Qed.

Lemma tracks_norm : forall fs ds, List.Forall2 tracks fs ds -> vnorm (map val ds) <> 0 ->
  tracks (fun t => vnorm (ats fs t)) (dnorm ds).
Proof.
  intros fs ds H N. unfold vnorm in *. rewrite map_map in N.
  set (S := Rsum (map (fun a => val a ^ 2) ds)) in *.
  assert (P0 : 0 <= S) by (unfold S; rewrite <- (map_map val (fun x => x^2)); apply sumsq_nonneg).
  assert (P : 0 < S). { destruct P0 as [P0|P0]; [exact P0|]. exfalso. apply N. rewrite <- P0. apply sqrt_0. }
  apply (tracks_eq _ (dsqrt (Dual S (Rsum (map (fun a => der a * (2 * val a)) ds))))).
  - reflexivity.
  - cbn [der dsqrt dnorm val]. fold S.
    rewrite (map_ext (fun a => der a * (val a / sqrt S)) (fun a => (der a * (2 * val a)) * (/ (2 * sqrt S)))).
    + rewrite (Rsum_scale dual (fun a => der a * (2 * val a))). reflexivity.
    + intros a. field. exact N.
  - apply tracks_sqrt; [exact P|]. exact (sumsq_tracks fs ds H).
Qed.

Lemma dot_tracks : forall rs r xs x, List.Forall2 tracks rs r -> List.Forall2 tracks xs x ->
  tracks (fun t => dot (ats rs t) (ats xs t)) (ddot r x).
Proof.
  intros rs r xs x H. revert xs x. induction H as [|f d rs r Hf _ IH]; intros xs x G.
  - apply (tracks_const 0).
  - destruct G as [|g e xs x Hg G].
    + apply (tracks_const 0).
    + cbn [ats map dot ddot]. apply tracks_add; [apply tracks_mul; assumption|]. exact (IH xs x G).
Qed.

Lemma ddot_val : forall r x, val (ddot r x) = dot (map val r) (map val x).
Proof.
  induction r as [|a r IH]; intros x; [reflexivity|]. destruct x as [|b x]; [reflexivity|].
  cbn. rewrite IH. reflexivity.
Qed.

Definition fits (W : list (list dual)) (n : nat) : Prop := forall r, In r W -> length r = n.

Lemma linear_tracks : forall W xs x, List.Forall2 tracks xs x -> fits W (length x) ->
  ad_linear W x = Ok (map (fun r => ddot r x) W)
  /\ forall t, linear (map (map (moved t)) W) (ats xs t)
     = Ok (ats (map (fun r t => dot (map (moved t) r) (ats xs t)) W) t).
Proof.
  intros W xs x H F. assert (EL : length xs = length x) by (clear F; induction H; cbn; congruence). split.
  - unfold ad_linear. replace (forallb _ W) with true; [reflexivity|]. symmetry. apply forallb_forall.
    intros r Hr. rewrite (F r Hr). apply Nat.eqb_refl.
  - intros t. unfold linear. replace (forallb _ (map (map (moved t)) W)) with true.
    + f_equal. unfold ats. rewrite !map_map. reflexivity.
    + symmetry. apply forallb_forall. intros r' Hr. apply in_map_iff in Hr. destruct Hr as (r & <- & Hr).
      rewrite map_length, ats_length, EL, (F r Hr). apply Nat.eqb_refl.
Qed.

Lemma row_tracks : forall xs x r, List.Forall2 tracks xs x ->
  tracks (fun t => dot (map (moved t) r) (ats xs t)) (ddot r x).
Proof.
  intros xs x r H. apply (tracks_ext (fun t => dot (ats (map (fun d t => moved t d) r) t) (ats xs t))).
  - intros t. rewrite ats_moved. reflexivity.
  - apply dot_tracks; [apply moved_all|exact H].
Qed.

Lemma rows_tracks : forall xs x W, List.Forall2 tracks xs x ->
  List.Forall2 tracks (map (fun r t => dot (map (moved t) r) (ats xs t)) W) (map (fun r => ddot r x) W).
Proof. intros xs x W H. induction W as [|r W IH]; constructor; [apply row_tracks; exact H|exact IH]. Qed.

Lemma layers_cons2 : forall W W' Ws acts x, mlp_layers (W :: W' :: Ws) acts x
  = match acts with [] => Err IndexError | f :: acts' => bind (linear W x) (fun y => mlp_layers (W' :: Ws) acts' (map f y)) end.
Proof. reflexivity. Qed.

Lemma fits_of : forall W n, (forall r, In r (map (map val) W) -> length r = n) -> fits W n.
Proof. intros W n H r Hr. rewrite <- (map_length val r). apply H. apply in_map. exact Hr. Qed.

Lemma layers_tracks : forall Ws acts xs x, List.Forall2 tracks xs x ->
  smooth_layers (map (map (map val)) Ws) acts (map val x) ->
  exists y fs, ad_layers Ws acts x = Ok y /\ List.Forall2 tracks fs y
  /\ forall t, mlp_layers (map (map (map (moved t))) Ws) (map act_fun acts) (ats xs t) = Ok (ats fs t).
Proof.
  induction Ws as [|W Ws IH]; intros acts xs x H S; [destruct S|].
  destruct Ws as [|W' Ws].
  - cbn [map smooth_layers] in S. rewrite map_length in S. apply fits_of in S.
    destruct (linear_tracks W xs x H S) as [E1 E2].
    exists (map (fun r => ddot r x) W), (map (fun r t => dot (map (moved t) r) (ats xs t)) W).
    split; [exact E1|]. split; [apply rows_tracks; exact H|]. intros t. exact (E2 t).
  - destruct acts as [|f acts]; [destruct S|].
    cbn [map] in S. change (map (map (map val)) Ws) with (map (map (map val)) Ws) in S.
    destruct S as (S1 & S2 & S3). rewrite map_length in S1. apply fits_of in S1.
    destruct (linear_tracks W xs x H S1) as [E1 E2].
    set (fs := map (fun r t => act_fun f (dot (map (moved t) r) (ats xs t))) W).
    set (y := map (dact f) (map (fun r => ddot r x) W)).
    assert (T : List.Forall2 tracks fs y).
    { unfold fs, y. clear - S2 H. induction W as [|r W IHW]; constructor.
      - apply (tracks_comp (act_fun f) _ (ddot r x) (act_der f (val (ddot r x)))); [apply row_tracks; exact H|].
        rewrite ddot_val. apply S2. left. reflexivity.
      - apply IHW. intros r' Hr'. apply S2. right. exact Hr'. }
    assert (S3' : smooth_layers (map (map (map val)) (W' :: Ws)) acts (map val y)).
    { cbn [map] in S3 |- *. rewrite map_map in S3.
      replace (map val y) with (map (fun r => act_fun f (dot (map val r) (map val x))) W); [exact S3|].
      unfold y. rewrite !map_map. apply map_ext. intros r. cbn [val dact]. rewrite ddot_val. reflexivity. }
    destruct (IH acts fs y T S3') as (z & gs & Z1 & Z2 & Z3).
    exists z, gs. split; [|split; [exact Z2|]].
    + change (ad_layers (W :: W' :: Ws) (f :: acts) x) with (bind (ad_linear W x) (fun y => ad_layers (W' :: Ws) acts (map (dact f) y))).
      rewrite E1. exact Z1.
    + intros t. specialize (Z3 t). cbn [map] in Z3 |- *. rewrite layers_cons2, E2. cbn [bind].
      replace (map (act_fun f) _) with (ats fs t); [exact Z3|].
      unfold fs, ats. rewrite !map_map. reflexivity.
Qed.

Lemma vadd_tracks : forall xs x ys y, List.Forall2 tracks xs x -> List.Forall2 tracks ys y -> length x = length y ->
  exists z zs, ad_vadd x y = Ok z /\ List.Forall2 tracks zs z /\ forall t, vadd (ats xs t) (ats ys t) = Ok (ats zs t).
Proof.
  intros xs x ys y H. revert ys y. induction H as [|f d xs x Hf _ IH]; intros ys y G E.
  - destruct G; [|discriminate]. exists [], []. split; [reflexivity|]. split; [constructor|reflexivity].
  - destruct G as [|g e ys y Hg G]; [discriminate|]. injection E as E.
    destruct (IH ys y G E) as (z & zs & Z1 & Z2 & Z3).
    exists (dadd d e :: z), ((fun t => f t + g t) :: zs). split; [cbn; rewrite Z1; reflexivity|].
    split; [constructor; [apply tracks_add; assumption|exact Z2]|].
    intros t. cbn. change (map (fun f => f t) xs) with (ats xs t). change (map (fun f => f t) ys) with (ats ys t).
    rewrite (Z3 t). reflexivity.
Qed.

Lemma rational_tracks : forall f g nu x, 0 < val x -> tracks f nu -> tracks g x ->
  tracks (fun t => rational (f t) (g t)) (ad_rational nu x).
Proof.
  intros f g nu x P Hf Hg. unfold rational, ad_rational. cbv zeta.
  assert (A : tracks (fun t => Rabs (g t)) (dabs x)) by (apply tracks_abs; [lra|exact Hg]).
  assert (PA : 0 < val (dabs x)) by (cbn [val dabs]; rewrite Rabs_pos_eq; lra).
  apply tracks_div.
  - apply Rgt_not_eq. apply exp_pos.
  - apply tracks_powt; [exact PA|exact A|]. apply tracks_sub; [exact Hf|apply tracks_const].
  - apply tracks_powt.
    + cbn [val dadd const dsq]. pose proof (pow2_ge_0 (val (dabs x))). cbn [val dabs] in *. lra.
    + apply tracks_add; [apply tracks_const|]. apply tracks_sq. exact A.
    + apply tracks_div; [cbn; lra|exact Hf|apply tracks_const].
Qed.

Lemma tracks_abs_scaled : forall k f a, 0 < val a -> (forall t, 0 < f t) -> tracks f a ->
  tracks (fun t => Rabs (k * f t)) (dabs (dmul (const k) a)).
Proof.
  intros k f a P Q H. destruct (Req_dec k 0) as [->|N].
  - apply (tracks_ext (fun _ => 0)); [intros t; rewrite Rmult_0_l, Rabs_R0; reflexivity|].
    apply (tracks_eq _ (const 0)); [cbn; rewrite Rmult_0_l, Rabs_R0; reflexivity|cbn; ring|apply tracks_const].
  - apply tracks_abs; [cbn; apply Rmult_integral_contrapositive_currified; lra|].
    apply tracks_mul; [apply tracks_const|exact H].
Qed.

Lemma vnorm_pos : forall x, vnorm x <> 0 -> 0 < vnorm x.
Proof. intros x H. pose proof (sqrt_pos (Rsum (map (fun a => a^2) x))). unfold vnorm in *. lra. Qed.

Lemma taunet_tracks : forall s P k1 k2 k3, smooth_network s P k1 k2 k3 ->
  let L := dexp (pa_logL P) in
  exists d f, ad_taunet (pa_weights P) (st_acts s) (pa_nu P) [dmul (const k1) L; dmul (const k2) L; dmul (const k3) L] = Ok d
  /\ tracks f d
  /\ forall t, taunet_forward (map (map (map (moved t))) (pa_weights P)) (map act_fun (st_acts s)) (moved t (pa_nu P))
                 [k1 * exp (moved t (pa_logL P)); k2 * exp (moved t (pa_logL P)); k3 * exp (moved t (pa_logL P))] = Ok (f t).
Proof.
  intros s P k1 k2 k3 [S (a & Ea & Na)] L.
  set (l := fun t => exp (moved t (pa_logL P))).
  assert (TL : tracks l L) by (apply tracks_exp, tracks_moved).
  assert (PL : 0 < val L) by apply exp_pos.
  assert (Pl : forall t, 0 < l t) by (intros; apply exp_pos).
  set (xs := [(fun t => Rabs (k1 * l t)); (fun t => Rabs (k2 * l t)); (fun t => Rabs (k3 * l t))]).
  set (x := map dabs [dmul (const k1) L; dmul (const k2) L; dmul (const k3) L]).
  assert (TX : List.Forall2 tracks xs x) by (unfold xs, x; cbn [map]; do 3 (apply List.Forall2_cons; [apply tracks_abs_scaled; assumption|]); apply List.Forall2_nil).
  assert (Vx : map val x = [Rabs (k1 * exp (val (pa_logL P))); Rabs (k2 * exp (val (pa_logL P))); Rabs (k3 * exp (val (pa_logL P)))]) by reflexivity.
  cbv zeta in S. rewrite <- Vx in S, Ea.
  destruct (layers_tracks (pa_weights P) (st_acts s) xs x TX S) as (y & ys & E1 & TY & E2).
  assert (M0 : map (map (map (moved 0))) (pa_weights P) = map (map (map val)) (pa_weights P)).
  { apply map_ext; intros W. apply map_ext; intros r. apply map_ext; intros d. unfold moved. ring. }
  assert (E0 := E2 0). rewrite M0, (ats_zero xs x TX), (ats_zero ys y TY) in E0.
  unfold mlp_forward in Ea. rewrite E0 in Ea. cbn [bind] in Ea.
  assert (Hl : length x = length y).
  { assert (G : forall u v w, vadd u v = Ok w -> length u = length v).
    { induction u as [|c u IH]; intros [|e v] w Hw; try reflexivity; try discriminate.
      cbn in Hw. destruct (vadd u v) as [r|] eqn:Er; [|discriminate]. cbn. f_equal. exact (IH v r Er). }
    apply G in Ea. rewrite !map_length in Ea. exact Ea. }
  destruct (vadd_tracks xs x ys y TX TY Hl) as (z & zs & Z1 & TZ & Z2).
  assert (Za := Z2 0). rewrite (ats_zero xs x TX), (ats_zero ys y TY), (ats_zero zs z TZ) in Za.
  rewrite Za in Ea. injection Ea as Ea.
  assert (TN : tracks (fun t => vnorm (ats zs t)) (dnorm z)) by (apply tracks_norm; [exact TZ|rewrite Ea; exact Na]).
  assert (PN : 0 < val (dnorm z)).
  { destruct TN as [V _]. rewrite <- V, (ats_zero zs z TZ), Ea. apply vnorm_pos. exact Na. }
  exists (ad_rational (pa_nu P) (dnorm z)), (fun t => rational (moved t (pa_nu P)) (vnorm (ats zs t))).
  split; [|split].
  - unfold ad_taunet. fold x. rewrite E1. cbn [bind]. rewrite Z1. reflexivity.
  - apply rational_tracks; [exact PN|apply tracks_moved|exact TN].
  - intros t. unfold taunet_forward, mlp_forward.
    change (map Rabs [k1 * exp (moved t (pa_logL P)); k2 * exp (moved t (pa_logL P)); k3 * exp (moved t (pa_logL P))]) with (ats xs t).
    rewrite (E2 t). cbn [bind]. rewrite (Z2 t). reflexivity.
Qed.

Lemma lifetime_tracks : forall s P k1 k2 k3, k1 <> 0 -> st_type s <> MANN ->
  (st_type s = TAUNET -> smooth_network s P k1 k2 k3) ->
  exists d, ad_lifetime s P k1 k2 k3 = Ok d
  /\ tracks (fun t => match eddy_lifetime (lifetime_at s P t) k1 k2 k3 with Ok b => b | Err _ => 0 end) d.
Proof.
  intros s P k1 k2 k3 Hk HM HT.
  set (l := fun t => exp (moved t (pa_logL P))). set (L := dexp (pa_logL P)).
  assert (TL : tracks l L) by (apply tracks_exp, tracks_moved).
  assert (PL : 0 < val L) by apply exp_pos.
  assert (TT : tracks (fun t => exp (moved t (pa_logT P))) (dexp (pa_logT P))) by (apply tracks_exp, tracks_moved).
  assert (PK : 0 < sqrt (kk_of k1 k2 k3)) by (apply sqrt_lt_R0, kk_pos, Hk).
  assert (TK : tracks (fun t => l t * sqrt (kk_of k1 k2 k3)) (dmul L (const (sqrt (kk_of k1 k2 k3))))) by (apply tracks_mul; [exact TL|apply tracks_const]).
  assert (PKL : 0 < val (dmul L (const (sqrt (kk_of k1 k2 k3))))) by (cbn [val dmul const]; apply Rmult_lt_0_compat; assumption).
  unfold ad_lifetime, eddy_lifetime, lifetime_at. cbn [le_type le_L le_T le_hyp le_coef le_icpt le_net]. cbv zeta. fold L.
  destruct (st_type s) eqn:Ety; cbn [bind].
  - eexists. split; [reflexivity|]. apply tracks_mul; [exact TT|]. apply tracks_pow; assumption.
  - destruct (taunet_tracks s P k1 k2 k3 (HT eq_refl)) as (d & f & E1 & Tf & E2). fold L in E1. rewrite E1. cbn [bind].
    eexists. split; [reflexivity|].
    apply (tracks_ext (fun t => exp (moved t (pa_logT P)) * (0 + f t))).
    + intros t. rewrite (E2 t). reflexivity.
    + apply tracks_mul; [exact TT|]. apply tracks_add; [apply tracks_const|exact Tf].
  - contradiction.
  - eexists. split; [reflexivity|]. apply tracks_mul; [exact TT|]. unfold mann_linear_approx.
    apply tracks_exp, tracks_add; [|apply tracks_const]. apply tracks_mul; [apply tracks_const|]. apply tracks_ln; assumption.
  - eexists. split; [reflexivity|]. apply tracks_mul; [exact TT|]. apply tracks_const.
Qed.
