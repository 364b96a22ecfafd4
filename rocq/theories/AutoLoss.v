(** Derivatives of the loss. *)

From Coq Require Import Reals Lra Lia List Arith Sorted.
From Coquelicot Require Import Coquelicot.
From Verif Require Import Prelude RdtModel SpectraModel RdtSpec RdtProofs RdtOde SpectraProofs OpsModel OpsSpec OpsProofs LossModel LossSpec TotalSpec AutoModel AutoSpec AutoProofs AutoNet AutoSpectra.
Import ListNotations.
Open Scope R_scope.

Definition ltracks (F : R -> list R) (ds : list dual) : Prop :=
  exists fs, (forall t, F t = ats fs t) /\ List.Forall2 tracks fs ds.

Lemma ltracks_nil : ltracks (fun _ => []) [].
Proof. exists []. split; [reflexivity|constructor]. Qed.

Lemma ltracks_cons : forall f F d ds, tracks f d -> ltracks F ds -> ltracks (fun t => f t :: F t) (d :: ds).
Proof. intros f F d ds H (fs & E & G). exists (f :: fs). split; [intros t; rewrite E; reflexivity|]. apply List.Forall2_cons; assumption. Qed.

Lemma ltracks_ext : forall F G ds, (forall t, F t = G t) -> ltracks F ds -> ltracks G ds.
Proof. intros F G ds H (fs & E & T). exists fs. split; [intros t; rewrite <- H; apply E|exact T]. Qed.

Lemma ltracks_app : forall F G ds es, ltracks F ds -> ltracks G es -> ltracks (fun t => F t ++ G t) (ds ++ es).
Proof.
  intros F G ds es (fs & E1 & T1) (gs & E2 & T2). exists (fs ++ gs). split.
  - intros t. rewrite E1, E2. unfold ats. rewrite map_app. reflexivity.
  - apply List.Forall2_app; assumption.
Qed.

Lemma ltracks_map : forall (G : R -> R) (g : dual -> dual) F ds,
  (forall f d, In d ds -> tracks f d -> tracks (fun t => G (f t)) (g d)) ->
  ltracks F ds -> ltracks (fun t => map G (F t)) (map g ds).
Proof.
  intros G g F ds H (fs & E & T). exists (map (fun f t => G (f t)) fs). split.
  - intros t. rewrite E. unfold ats. rewrite !map_map. reflexivity.
  - clear E. induction T as [|f d fs ds Hf T IH]; [constructor|]. apply List.Forall2_cons.
    + apply H; [left; reflexivity|exact Hf].
    + apply IH. intros f' d' I'. apply H. right. exact I'.
Qed.

Lemma forall2_len : forall (fs : list (R -> R)) ds, List.Forall2 tracks fs ds -> length fs = length ds.
Proof. intros fs ds H. induction H; cbn; congruence. Qed.

Lemma mean_tracks : forall F ds, ltracks F ds -> tracks (fun t => average (F t)) (dmean ds).
Proof.
  intros F ds (fs & E & T). assert (L := forall2_len fs ds T).
  apply (tracks_ext (fun t => Rsum (ats fs t) * / INR (length ds))).
  { intros t. rewrite E. unfold average, Rdiv. rewrite ats_length, L. reflexivity. }
  assert (S : tracks (fun t => Rsum (ats fs t)) (Dual (Rsum (map val ds)) (Rsum (map der ds)))).
  { clear E L. induction T as [|f d fs ds Hf T IH]; [apply (tracks_const 0)|]. exact (tracks_add f _ d _ Hf IH). }
  apply (tracks_eq _ (dmul (Dual (Rsum (map val ds)) (Rsum (map der ds))) (const (/ INR (length ds))))).
  - reflexivity.
  - cbn [der dmul const val dmean]. unfold Rdiv. ring.
  - apply tracks_mul; [exact S|apply tracks_const].
Qed.

Lemma derive_excess : forall x, is_derive (fun v => (Rmax 0 v)^2) x (2 * Rmax 0 x).
Proof.
  intros x. destruct (Rlt_dec 0 x) as [P|P]; [|destruct (Req_dec x 0) as [Z|Z]].
  - apply (is_derive_ext_loc (fun v => v^2)).
    + apply (filter_imp (fun v => 0 < v)); [|apply (open_gt 0); exact P].
      intros v Hv. rewrite Rmax_right by lra. reflexivity.
    + rewrite Rmax_right by lra. auto_derive; [exact I|ring].
  - subst x. rewrite Rmax_left by lra. rewrite Rmult_0_r. apply is_derive_Reals. intros eps He.
    exists (mkposreal eps He). intros h Hh Hb. cbn in Hb. rewrite Rplus_0_l, (Rmax_left 0 0) by lra.
    replace (((Rmax 0 h)^2 - 0^2) / h - 0) with (Rmax 0 h * (Rmax 0 h / h)) by (field; exact Hh).
    rewrite Rabs_mult. apply Rle_lt_trans with (Rabs h * 1).
    + apply Rmult_le_compat; try apply Rabs_pos.
      * unfold Rmax. destruct (Rle_dec 0 h); [lra|]. rewrite Rabs_R0. apply Rabs_pos.
      * unfold Rmax. destruct (Rle_dec 0 h); [|unfold Rdiv; rewrite Rmult_0_l, Rabs_R0; lra].
        unfold Rdiv. rewrite Rinv_r by exact Hh. rewrite Rabs_R1. lra.
    + rewrite Rmult_1_r. exact Hb.
  - assert (N : x < 0) by lra. apply (is_derive_ext_loc (fun _ => 0)).
    + apply (filter_imp (fun v => v < 0)); [|apply (open_lt 0); exact N].
      intros v Hv. rewrite Rmax_left by lra. symmetry. apply pow_i. lia.
    + rewrite Rmax_left by lra. rewrite Rmult_0_r. apply @is_derive_const.
Qed.

Lemma excess_tracks : forall f d, tracks f d -> tracks (fun t => (Rmax 0 (f t))^2) (dsq (drelu d)).
Proof.
  intros f d H. apply (tracks_eq _ (Dual ((Rmax 0 (val d))^2) (der d * (2 * Rmax 0 (val d))))).
  - cbn [val dsq]. unfold drelu. destruct (Rlt_dec 0 (val d)); [rewrite Rmax_right by lra; reflexivity|rewrite Rmax_left by lra; reflexivity].
  - cbn [der dsq]. unfold drelu. destruct (Rlt_dec 0 (val d)); [rewrite Rmax_right by lra; reflexivity|rewrite Rmax_left by lra; cbn [der val const]; ring].
  - apply (tracks_comp (fun v => (Rmax 0 v)^2) f d _ H). apply derive_excess.
Qed.

Lemma lnabs_tracks : forall f d, val d <> 0 -> tracks f d -> tracks (fun t => ln (Rabs (f t))) (dln (dabs d)).
Proof. intros f d N H. apply tracks_ln; [cbn [val dabs]; apply Rabs_pos_lt; exact N|]. apply tracks_abs; assumption. Qed.

Lemma misfit_tracks : forall f d c, val d <> 0 -> c <> 0 -> tracks f d ->
  tracks (fun t => (ln (Rabs c) - ln (Rabs (f t)))^2) (dsq (dln (dabs (ddiv d (const c))))).
Proof.
  intros f d c N C H.
  assert (V : ln (Rabs (val d / c)) = ln (Rabs (val d)) - ln (Rabs c)).
  { unfold Rdiv. rewrite Rabs_mult, Rabs_inv. rewrite ln_mult; [|apply Rabs_pos_lt; exact N|apply Rinv_0_lt_compat, Rabs_pos_lt; exact C].
    rewrite ln_Rinv by (apply Rabs_pos_lt; exact C). ring. }
  apply (tracks_eq _ (dsq (dsub (const (ln (Rabs c))) (dln (dabs d))))).
  - cbn [val dsq dsub const dln dabs ddiv]. rewrite V. ring.
  - cbn [val der dsq dsub const dln dabs ddiv]. rewrite V. rewrite Rmult_0_l, Rminus_0_r.
    assert (S : der d / c * Rsign (val d / c) / Rabs (val d / c) = der d * Rsign (val d) / Rabs (val d)).
    { assert (Q : forall x, x <> 0 -> Rsign x / Rabs x = / x).
      { intros x Hx. unfold Rsign. destruct (Rlt_dec 0 x); [rewrite Rabs_pos_eq by lra; field; exact Hx|].
        destruct (Rlt_dec x 0); [rewrite Rabs_left by lra; field; exact Hx|lra]. }
      unfold Rdiv in *. rewrite !Rmult_assoc, Q, Q; [field; split; assumption|exact N|].
      apply Rmult_integral_contrapositive_currified; [exact N|apply Rinv_neq_0_compat; exact C]. }
    rewrite S. ring.
  - apply tracks_sq, tracks_sub; [apply tracks_const|]. apply lnabs_tracks; assumption.
Qed.

Lemma misfits_tracks : forall F ds cs, ltracks F ds -> List.Forall (fun d => val d <> 0) ds -> List.Forall (fun c => c <> 0) cs ->
  ltracks (fun t => sq_log_distances (F t) cs) (map dsq (zip_with (fun m c => dln (dabs (ddiv m (const c)))) ds cs)).
Proof.
  intros F ds cs (fs & E & T) N C.
  apply (ltracks_ext (fun t => sq_log_distances (ats fs t) cs)); [intros t; rewrite E; reflexivity|].
  clear E F. revert cs C. induction T as [|f d fs ds Hf T IH]; intros cs C; [apply ltracks_nil|].
  inversion N as [|? ? N1 N2]; subst. destruct C as [|c cs C1 C2]; [apply ltracks_nil|].
  cbn [ats map sq_log_distances zip_with]. apply (ltracks_cons (fun t => (ln (Rabs c) - ln (Rabs (f t)))^2)).
  - apply misfit_tracks; assumption.
  - apply IH; assumption.
Qed.

Lemma zip_app : forall (A B C : Type) (f : A -> B -> C) l l' m m', length l = length m ->
  zip_with f (l ++ l') (m ++ m') = zip_with f l m ++ zip_with f l' m'.
Proof. intros A B C f l. induction l as [|a l IH]; intros l' [|b m] m' H; cbn in *; try discriminate; [reflexivity|]. rewrite IH by congruence. reflexivity. Qed.

Definition rtracks (Y : R -> list (list R)) (dss : list (list dual)) : Prop :=
  exists Fs, (forall t, Y t = map (fun F => F t) Fs) /\ List.Forall2 ltracks Fs dss.

Lemma mse_tracks : forall Y dss css, rtracks Y dss ->
  List.Forall (List.Forall (fun d => val d <> 0)) dss -> List.Forall (List.Forall (fun c => c <> 0)) css ->
  List.Forall2 (fun ds cs => length ds = length (cs : list R)) dss css ->
  tracks (fun t => average (sq_log_distances_all (Y t) css)) (ad_mse (concat dss) (concat css)).
Proof.
  intros Y dss css (Fs & E & T) N C L. unfold ad_mse.
  apply (tracks_ext (fun t => average (sq_log_distances_all (map (fun F => F t) Fs) css))); [intros t; rewrite E; reflexivity|].
  apply mean_tracks. clear E Y. revert css C L. induction T as [|F ds Fs dss HF T IH]; intros css C L.
  - inversion L; subst. apply ltracks_nil.
  - inversion N as [|? ? N1 N2]; subst. inversion L as [|? cs ? css' L1 L2]; subst. inversion C as [|? ? C1 C2]; subst.
    cbn [concat map sq_log_distances_all]. rewrite zip_app by exact L1. rewrite map_app.
    apply (ltracks_app (fun t => sq_log_distances (F t) cs)); [apply misfits_tracks; assumption|]. apply IH; assumption.
Qed.

Lemma grid_steps : forall k0 k1 ks, grid_h1 (k0 :: k1 :: ks) = (ln k1 - ln k0) :: grid_h1 (k1 :: ks).
Proof. reflexivity. Qed.

Lemma slopes_tracks : forall ks F ds, StronglySorted Rlt ks -> List.Forall (fun k => 0 < k) ks ->
  ltracks F ds -> List.Forall (fun d => val d <> 0) ds ->
  ltracks (fun t => slopes ks (F t)) (ad_slopes (grid_h1 ks) ds).
Proof.
  intros ks F ds S P (fs & E & T) N. apply (ltracks_ext (fun t => slopes ks (ats fs t))); [intros t; rewrite E; reflexivity|].
  clear E F. revert fs ds T N. induction ks as [|k0 ks IH]; intros fs ds T N.
  { unfold ad_slopes. replace (zip_with _ _ (grid_h1 [])) with (@nil dual); [apply ltracks_nil|]. destruct (ddiff _); reflexivity. }
  destruct ks as [|k1 ks].
  { unfold ad_slopes. replace (zip_with _ _ (grid_h1 [k0])) with (@nil dual).
    - apply (ltracks_ext (fun _ => [])); [intros t; reflexivity|apply ltracks_nil].
    - destruct (ddiff _); reflexivity. }
  inversion S as [|? ? S1 S2]; subst. inversion P as [|? ? P1 P2]; subst.
  inversion S2 as [|? ? S3 S4]; subst. inversion P2 as [|? ? P3 P4]; subst.
  destruct T as [|f d fs ds Hf T]; [apply ltracks_nil|].
  destruct T as [|g e fs ds Hg T]; [apply ltracks_nil|].
  inversion N as [|? ? N1 N2]; subst. inversion N2 as [|? ? N3 N4]; subst.
  rewrite grid_steps. unfold ad_slopes. cbn [map ddiff zip_with].
  apply (ltracks_cons (fun t => (ln (Rabs (g t)) - ln (Rabs (f t))) / (ln k1 - ln k0)) (fun t => slopes (k1 :: ks) (g t :: ats fs t))).
  - apply tracks_div; [cbn [val const]; pose proof (ln_increasing k0 k1 P1 S3); lra| |apply tracks_const].
    apply tracks_sub; apply lnabs_tracks; assumption.
  - apply (IH S1 P2 (g :: fs) (e :: ds)); [|exact N2]. apply List.Forall2_cons; assumption.
Qed.

Lemma grid_bend_steps : forall k0 k1 k2 ks, grid_h2 (k0 :: k1 :: k2 :: ks) = (/ 2 * (ln k1 + ln k2) - / 2 * (ln k0 + ln k1)) :: grid_h2 (k1 :: k2 :: ks).
Proof. reflexivity. Qed.

Lemma bends_tracks : forall ks F ds, StronglySorted Rlt ks -> List.Forall (fun k => 0 < k) ks ->
  ltracks F ds -> List.Forall (fun d => val d <> 0) ds ->
  ltracks (fun t => bends ks (F t)) (ad_bends (grid_h1 ks) (grid_h2 ks) ds).
Proof.
  intros ks F ds S P (fs & E & T) N. apply (ltracks_ext (fun t => bends ks (ats fs t))); [intros t; rewrite E; reflexivity|].
  clear E F. revert fs ds T N. induction ks as [|k0 ks IH]; intros fs ds T N.
  { unfold ad_bends. replace (zip_with _ _ (grid_h2 [])) with (@nil dual); [apply ltracks_nil|]. destruct (ddiff _); reflexivity. }
  destruct ks as [|k1 ks].
  { unfold ad_bends. replace (zip_with _ _ (grid_h2 [k0])) with (@nil dual).
    - apply (ltracks_ext (fun _ => [])); [intros t; reflexivity|apply ltracks_nil].
    - destruct (ddiff _); reflexivity. }
  destruct ks as [|k2 ks].
  { unfold ad_bends. replace (zip_with _ _ (grid_h2 [k0; k1])) with (@nil dual).
    - apply (ltracks_ext (fun _ => [])); [intros t; destruct (ats fs t) as [|? [|? ?]]; reflexivity|apply ltracks_nil].
    - destruct (ddiff _); reflexivity. }
  inversion S as [|? ? S1 S2]; subst. inversion P as [|? ? P1 P2]; subst.
  inversion S2 as [|? ? S3 S4]; subst. inversion P2 as [|? ? P3 P4]; subst.
  inversion S4 as [|? ? S5 S6]; subst. inversion P4 as [|? ? P5 P6]; subst.
  assert (S7 : k1 < k2) by (inversion S1 as [|? ? Q1 Q2]; subst; inversion Q2; subst; assumption).
  destruct T as [|f d fs ds Hf T]; [apply ltracks_nil|].
  destruct T as [|g e fs ds Hg T]; [apply ltracks_nil|].
  destruct T as [|h c fs ds Hh T]; [apply ltracks_nil|].
  inversion N as [|? ? N1 N2]; subst. inversion N2 as [|? ? N3 N4]; subst. inversion N4 as [|? ? N5 N6]; subst.
  rewrite !grid_steps, grid_bend_steps. unfold ad_bends, ad_slopes. cbn [map ddiff zip_with].
  pose proof (ln_increasing k0 k1 P1 S3) as I1. pose proof (ln_increasing k1 k2 P3 S7) as I2.
  apply (ltracks_cons (fun t => ((ln (Rabs (h t)) - ln (Rabs (g t))) / (ln k2 - ln k1) - (ln (Rabs (g t)) - ln (Rabs (f t))) / (ln k1 - ln k0)) / ((ln k2 - ln k0) / 2))
           (fun t => bends (k1 :: k2 :: ks) (g t :: h t :: ats fs t))).
  - apply (tracks_ext (fun t => ((ln (Rabs (h t)) - ln (Rabs (g t))) / (ln k2 - ln k1) - (ln (Rabs (g t)) - ln (Rabs (f t))) / (ln k1 - ln k0)) / (/ 2 * (ln k1 + ln k2) - / 2 * (ln k0 + ln k1)))).
    { intros t. f_equal. field. }
    apply tracks_div; [cbn [val const]; lra| |apply tracks_const].
    apply tracks_sub; (apply tracks_div; [cbn [val const]; lra| |apply tracks_const]); apply tracks_sub; apply lnabs_tracks; assumption.
  - apply (IH S1 P2 (g :: h :: fs) (e :: c :: ds)); [|exact N2]. apply List.Forall2_cons; [exact Hg|]. apply List.Forall2_cons; assumption.
Qed.

Lemma rows_concat : forall (G : list R -> list R) (g : list dual -> list dual) Y dss,
  (forall F ds, In ds dss -> ltracks F ds -> ltracks (fun t => G (F t)) (g ds)) ->
  rtracks Y dss -> ltracks (fun t => flat_map G (Y t)) (concat (map g dss)).
Proof.
  intros G g Y dss H (Fs & E & T). apply (ltracks_ext (fun t => flat_map G (map (fun F => F t) Fs))); [intros t; rewrite E; reflexivity|].
  clear E Y. induction T as [|F ds Fs dss HF T IH]; [apply ltracks_nil|]. cbn [map flat_map concat].
  apply (ltracks_app (fun t => G (F t))); [apply H; [left; reflexivity|exact HF]|]. apply IH. intros F' ds' I'. apply H. right. exact I'.
Qed.

Lemma penalty_tracks : forall F ds a z, z <> 0 -> ltracks F ds ->
  tracks (fun t => weighted_term a (mean_sq_excess (F t) / z))
         (if Rltb 0 a then ddiv (dmul (const a) (dmean (map (fun v => dsq (drelu v)) ds))) (const z) else const 0).
Proof.
  intros F ds a z Z T. unfold weighted_term, Rltb. destruct (Rlt_dec 0 a); [|apply tracks_const].
  apply (tracks_ext (fun t => a * mean_sq_excess (F t) / z)); [intros t; field; exact Z|].
  apply tracks_div; [exact Z| |apply tracks_const]. apply tracks_mul; [apply tracks_const|].
  unfold mean_sq_excess. apply mean_tracks. apply (ltracks_map (fun v => (Rmax 0 v)^2)); [|exact T].
  intros f d _ H. apply excess_tracks. exact H.
Qed.

Lemma loss_tracks : forall p ks zref Y dss css th,
  StronglySorted Rlt ks -> List.Forall (fun k => 0 < k) ks -> zref <> 0 -> rtracks Y dss ->
  List.Forall (List.Forall (fun d => val d <> 0)) dss -> List.Forall (List.Forall (fun c => c <> 0)) css ->
  List.Forall2 (fun ds cs => length ds = length (cs : list R)) dss css ->
  tracks (fun t => loss_value p ks zref (Y t) css (option_map (map (moved t)) th) None) (ad_loss p ks zref dss css th).
Proof.
  intros p ks zref Y dss css th S P Z T N C L. unfold loss_value, ad_loss.
  assert (NN : forall ds, In ds dss -> List.Forall (fun d => val d <> 0) ds) by (intros ds I; rewrite List.Forall_forall in N; apply N; exact I).
  apply tracks_add; [apply tracks_add; [apply tracks_add|]|].
  - apply (tracks_ext (fun t => average (sq_log_distances_all (Y t) css))); [intros t; ring|]. apply mse_tracks; assumption.
  - apply (penalty_tracks (fun t => flat_map (slopes ks) (Y t))); [exact Z|]. apply rows_concat; [|exact T].
    intros F ds I HF. apply slopes_tracks; auto.
  - apply (penalty_tracks (fun t => flat_map (bends ks) (Y t))); [apply pow_nonzero; exact Z|]. apply rows_concat; [|exact T].
    intros F ds I HF. apply bends_tracks; auto.
  - destruct th as [th|]; cbn [option_map].
    + unfold weighted_term, Rltb. destruct (Rlt_dec 0 (beta_reg p)); [|apply tracks_const].
      apply tracks_mul; [apply tracks_const|]. apply mean_tracks.
      apply (ltracks_map (fun v => v^2)); [intros f d _ H; apply tracks_sq; exact H|].
      exists (map (fun d t => moved t d) th). split; [intros t; symmetry; apply ats_moved|apply moved_all].
    + destruct (Rltb 0 (beta_reg p)); apply tracks_const.
Qed.

Lemma rows_tracks : forall s P p1 p2 N curves k1s,
  (forall sel k1, In sel curves -> In k1 k1s ->
     tracks (fun t => ops_forward sel (model_at s P t) p1 p2 N k1) (ad_forward sel s P p1 p2 N k1)) ->
  rtracks (rows_at s P p1 p2 N curves k1s) (ad_rows s P p1 p2 N curves k1s).
Proof.
  intros s P p1 p2 N curves k1s H.
  exists (map (fun sel t => map (ops_forward sel (model_at s P t) p1 p2 N) k1s) curves). split.
  - intros t. unfold rows_at. rewrite map_map. reflexivity.
  - unfold ad_rows. induction curves as [|sel curves IH]; [constructor|]. apply List.Forall2_cons.
    + exists (map (fun k1 t => ops_forward sel (model_at s P t) p1 p2 N k1) k1s). split.
      * intros t. unfold ats. rewrite map_map. reflexivity.
      * assert (G : forall k1, In k1 k1s -> tracks (fun t => ops_forward sel (model_at s P t) p1 p2 N k1) (ad_forward sel s P p1 p2 N k1))
          by (intros k1 I; apply H; [left; reflexivity|exact I]).
        clear H IH. induction k1s as [|k1 k1s IH]; [constructor|]. apply List.Forall2_cons; [apply G; left; reflexivity|].
        apply IH. intros k I. apply G. right. exact I.
    + apply IH. intros sel' k1 I1 I2. apply H; [right; exact I1|exact I2].
Qed.
