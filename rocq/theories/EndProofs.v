(** Scaling of kernels, samplers and generated fields with the energy scale. *)

From Coq Require Import String Reals List ZArith Lia Lra Bool.
From Coquelicot Require Import Complex.
From Verif Require Import Prelude SpectraModel RdtModel RdtSpec RdtProofs GenModel GenSpec GenProofs GenMore DftModel DftSpec DftProofs DftMore EndSpec.
Import ListNotations.
Open Scope R_scope.

(** ** Kernels *)

Lemma kernel_const_scale : forall c E0 L kk, 0 <= c -> kernel_const (c * E0) L kk = sqrt c * kernel_const E0 L kk.
Proof.
  intros c E0 L kk Hc. unfold kernel_const. rewrite <- sqrt_mult_alt by exact Hc. f_equal. unfold Rdiv. ring.
Qed.

Lemma cross_mat_scale : forall c k a1 a2 a3 i j, cross_mat (c * k) a1 a2 a3 i j = c * cross_mat k a1 a2 a3 i j.
Proof. intros c k a1 a2 a3 i j. unfold cross_mat. destruct i, j; ring. Qed.

Lemma vk_scale : forall c E0 L k1 k2 k3 i j, 0 <= c -> vk_kernel (c * E0) L k1 k2 k3 i j = sqrt c * vk_kernel E0 L k1 k2 k3 i j.
Proof. intros c E0 L k1 k2 k3 i j Hc. unfold vk_kernel. rewrite kernel_const_scale by exact Hc. apply cross_mat_scale. Qed.

Lemma sheared_scale : forall c E0 L b k1 k2 k3 i j, 0 <= c -> sheared_kernel (c * E0) L b k1 k2 k3 i j = sqrt c * sheared_kernel E0 L b k1 k2 k3 i j.
Proof.
  intros c E0 L b k1 k2 k3 i j Hc. unfold sheared_kernel. rewrite kernel_const_scale by exact Hc.
  destruct i; rewrite !cross_mat_scale; ring.
Qed.

Lemma model_kernel_scale : forall hyp net h model c L T E0 k1 k2 k3 i j, 0 <= c ->
  model_kernel hyp net h model (CovScales L T (c * E0)) k1 k2 k3 i j
  = Cmult (RtoC (sqrt c)) (model_kernel hyp net h model (CovScales L T E0) k1 k2 k3 i j).
Proof.
  intros hyp net h model c L T E0 k1 k2 k3 i j Hc. unfold model_kernel. cbn [cs_E0 cs_L cs_Gamma].
  rewrite Cmult_assoc, <- RtoC_mult. f_equal. f_equal.
  destruct (String.eqb model "VK"); [apply vk_scale; exact Hc|].
  destruct (String.eqb model "Mann"); apply sheared_scale; exact Hc.
Qed.

(** ** Sampler *)

Lemma correlated_scale : forall (G G' : kernel) (s : R) L d n i k, (forall k1 k2 k3 a b, G' k1 k2 k3 a b = Cmult (RtoC s) (G k1 k2 k3 a b)) ->
  correlated G' L d n i k = Cmult (RtoC s) (correlated G L d n i k).
Proof. intros G G' s L d n i k H. unfold correlated, spectrum_at. rewrite !H. ring. Qed.

Lemma irfftn_scale : forall d h h' (s : R) x, (forall k, h' k = Cmult (RtoC s) (h k)) -> irfftn d h' x = s * irfftn d h x.
Proof.
  intros d h h' s x H. unfold irfftn. rewrite (Rmult_comm s), Rmult_assoc. f_equal.
  rewrite (Rmult_comm _ s), <- Rsum_scale, map_map. f_equal. apply map_ext. intros k. rewrite H.
  destruct (h k) as [a b], (cis (theta d k x)) as [p q]. cbn. ring.
Qed.

Lemma sample_scale : forall (G G' : kernel) (s : R) L d n i x, (forall k1 k2 k3 a b, G' k1 k2 k3 a b = Cmult (RtoC s) (G k1 k2 k3 a b)) ->
  sample_vf G' L d n i x = s * sample_vf G L d n i x.
Proof.
  intros G G' s L d n i x H. unfold sample_vf.
  rewrite (irfftn_scale d (correlated G L d n i) (correlated G' L d n i) s x) by (intros k; apply correlated_scale; exact H).
  unfold Rdiv. ring.
Qed.

Lemma tabulate_scale : forall d u u' s, (forall i x, u' i x = s * u i x) -> tabulate d u' = fmap (fun v => s * v) (tabulate d u).
Proof.
  intros [[nx ny] nz] u u' s H. unfold tabulate, fmap. rewrite map_map. apply map_ext. intros p. rewrite map_map. apply map_ext. intros q.
  rewrite map_map. apply map_ext. intros r. rewrite !H. reflexivity.
Qed.

Lemma vf_sampler_scale : forall hyp net h model c L T E0 geo f, 0 <= c ->
  vf_sampler hyp net h model (CovScales L T (c * E0)) geo f = fmap (fun v => sqrt c * v) (vf_sampler hyp net h model (CovScales L T E0) geo f).
Proof.
  intros hyp net h model c L T E0 geo f Hc. unfold vf_sampler. apply tabulate_scale. intros i x. apply sample_scale.
  intros k1 k2 k3 a b. apply model_kernel_scale. exact Hc.
Qed.

(** The reference height is used by the DRD kernel only. *)
Lemma vf_sampler_href : forall hyp net h h' model cs geo f, (model = "VK" \/ model = "Mann")%string ->
  vf_sampler hyp net h model cs geo f = vf_sampler hyp net h' model cs geo f.
Proof. intros hyp net h h' model cs geo f [-> | ->]; reflexivity. Qed.

(** ** Slices *)

Lemma pyslice_map : forall A B (h : A -> B) a b l, pyslice a b (map h l) = map h (pyslice a b l).
Proof. intros A B h a b l. unfold pyslice. rewrite map_length, skipn_map, firstn_map. reflexivity. Qed.

Lemma central_fmap : forall A B (h : A -> B) g f, central_part g (fmap h f) = fmap h (central_part g f).
Proof.
  intros A B h g f. unfold central_part, fmap. rewrite pyslice_map, !map_map. apply map_ext. intros p.
  rewrite pyslice_map, !map_map. apply map_ext. intros c. apply pyslice_map.
Qed.

Lemma trim_fmap : forall (h : R -> R) g f, trim g (fmap h f) = fmap h (trim g f).
Proof. intros h g f. unfold trim. destruct (1 <? g_blend g)%Z; [|reflexivity]. unfold fmap. apply pyslice_map. Qed.

(** ** Normalisation *)

Lemma normalize_rescale : forall g a block c, 0 < c -> normalize_block g a (fmap (fun v => c * v) block) = normalize_block g a block.
Proof.
  intros g a block c Hc.
  assert (Hnz : any_nonzero (fmap (fun v => c * v) block) = any_nonzero block).
  { unfold any_nonzero. rewrite entries_fmap. induction (entries block) as [|x l IH]; [reflexivity|]. cbn [map existsb].
    rewrite IH. f_equal. f_equal. unfold Reqb. destruct (Req_EM_T (c * x) 0) as [E|E]; destruct (Req_EM_T x 0) as [E'|E']; try reflexivity.
    - apply Rmult_integral in E. destruct E; lra.
    - subst x. rewrite Rmult_0_r in E. contradiction. }
  unfold normalize_block. rewrite Hnz.
  destruct (negb (any_nonzero block)); [reflexivity|]. destruct (negb _); [reflexivity|]. destruct (_ || _)%bool; [reflexivity|].
  destruct (_ && _)%bool; [reflexivity|]. destruct (mean_profile g a) as [prof|e] eqn:HP; [|reflexivity]. cbn [bind].
  assert (Hsd : sqrt (Rmean (map (fun v => v^2) (entries (fmap (fun v => c * v) block)))) = c * sqrt (Rmean (map (fun v => v^2) (entries block)))).
  { rewrite entries_fmap, map_map.
    replace (map (fun x => (c * x)^2) (entries block)) with (map (fun v => c^2 * v) (map (fun v => v^2) (entries block))).
    - rewrite Rmean_scale. rewrite sqrt_mult_alt by apply pow2_ge_0. rewrite sqrt_pow2 by lra. reflexivity.
    - rewrite map_map. apply map_ext. intros x. ring. }
  rewrite Hsd. clear Hsd Hnz. set (sd := sqrt _).
  assert (F : forallb (fun p => forallb (fun cl => (length cl =? length prof)%nat) p) (fmap (fun v => c * v) block)
            = forallb (fun p => forallb (fun cl => (length cl =? length prof)%nat) p) block).
  { clear. unfold fmap. induction block as [|p f IH]; [reflexivity|]. cbn [map forallb]. rewrite IH. f_equal.
    induction p as [|cl p IHp]; [reflexivity|]. cbn [map forallb]. rewrite IHp, map_length. reflexivity. }
  rewrite F. destruct (forallb _ block); [|reflexivity]. f_equal.
  unfold fmap. rewrite map_map. apply map_ext. intros p. rewrite map_map. apply map_ext. intros cl.
  rewrite !add_profile_combine. f_equal. f_equal. rewrite map_map. apply map_ext. intros [[x y] z].
  assert (Q : forall t, c * t / (c * sd) = t / sd).
  { intros t. unfold Rdiv. destruct (Req_dec sd 0) as [E|E].
    - rewrite E, Rmult_0_r, Rinv_0. ring.
    - field. split; [exact E|lra]. }
  rewrite !Q. reflexivity.
Qed.

(** ** Calls *)

Section Rescaled.

  Variable G : Type.
  Variable gauss : G -> R * G.
  Variable geo : geometry.
  Variable std : R.
  Variables corr corr' : field R -> field R.
  Variable low : option low_view.
  Variable c : R.
  Hypothesis Hc : 0 < c.
  Hypothesis Hcorr : forall f, corr' f = fmap (fun v => c * v) (corr f).

  (** States which agree up to the stored blend region. *)
  Definition alike (s s' : gstate G) : Prop := s_noise s = s_noise s' /\ s_total s = s_total s' /\ s_rng s = s_rng s'.

  Lemma one_alike : forall a i s s', alike s s' ->
    fst (generate_one gauss geo std corr low a i s) = fst (generate_one gauss geo std corr' low a i s')
    /\ alike (snd (generate_one gauss geo std corr low a i s)) (snd (generate_one gauss geo std corr' low a i s')).
  Proof.
    intros a i s s' (H1 & H2 & H3). unfold generate_one, generate_block.
    assert (HN : next_noise gauss geo std s' = next_noise gauss geo std s) by (unfold next_noise; rewrite H1, H3; reflexivity).
    rewrite HN. destruct (next_noise gauss geo std s) as [[n|e] g]; [|cbn [fst snd]; split; [reflexivity|split; [exact H1|split; [exact H2|reflexivity]]]].
    rewrite Hcorr, central_fmap, trim_fmap, normalize_rescale by exact Hc.
    destruct (bind _ _) as [f|e]; [|cbn [fst snd]; split; [reflexivity|split; [reflexivity|split; [exact H2|reflexivity]]]].
    destruct (fits _ _ f); cbn [fst snd s_total s_noise s_rng]; rewrite ?H2; (split; [reflexivity|split; [reflexivity|split; [cbn [s_total]; rewrite ?H2; reflexivity|reflexivity]]]).
  Qed.

  Lemma loop_alike : forall a n i s s', alike s s' ->
    fst (generate_loop gauss geo std corr low a n i s) = fst (generate_loop gauss geo std corr' low a n i s')
    /\ alike (snd (generate_loop gauss geo std corr low a n i s)) (snd (generate_loop gauss geo std corr' low a n i s')).
  Proof.
    intros a n. induction n as [|n IH]; intros i s s' H; [split; [reflexivity|exact H]|]. cbn [generate_loop].
    pose proof (one_alike a i s s' H) as [E A].
    destruct (generate_one gauss geo std corr low a i s) as [[u|e] s1]; destruct (generate_one gauss geo std corr' low a i s') as [[u'|e'] s1'];
      cbn [fst snd] in E, A; try discriminate E.
    - apply IH. exact A.
    - split; [exact E|exact A].
  Qed.

  Lemma calls_alike : forall calls s s', alike s s' ->
    fst (gen_calls G gauss calls (Generator G geo std corr low s)) = fst (gen_calls G gauss calls (Generator G geo std corr' low s')).
  Proof.
    induction calls as [|[n a] calls IH]; intros s s' H; [reflexivity|]. cbn [gen_calls]. unfold gen_call, generate. cbn [gen_geo gen_std gen_correlate gen_low gen_state].
    pose proof (loop_alike a (Z.to_nat n) 0%nat s s' H) as [E A].
    destruct (generate_loop gauss geo std corr low a (Z.to_nat n) 0 s) as [[u|e] s1]; destruct (generate_loop gauss geo std corr' low a (Z.to_nat n) 0 s') as [[u'|e'] s1'];
      cbn [fst snd] in E, A; try discriminate E.
    - specialize (IH s1 s1' A). destruct (gen_calls G gauss calls (Generator G geo std corr low s1)) as [rs g1].
      destruct (gen_calls G gauss calls (Generator G geo std corr' low s1')) as [rs' g1']. cbn [fst] in *. rewrite IH. destruct A as (_ & -> & _). reflexivity.
    - specialize (IH s1 s1' A). destruct (gen_calls G gauss calls (Generator G geo std corr low s1)) as [rs g1].
      destruct (gen_calls G gauss calls (Generator G geo std corr' low s1')) as [rs' g1']. cbn [fst] in *. rewrite IH. injection E as ->. reflexivity.
  Qed.

End Rescaled.

(** ** Generators which differ in their energy only *)

Lemma construct_alike : forall hyp net h h' stored stored' G (gauss : G -> R * G) (seeded : Z -> G) C2 (low_make : C2 -> G -> res (low_view * G)) a a' config w L T E0 E0',
  same_setup a a' -> ga_model a = ga_model a' -> (h = h' \/ ga_model a = "VK" \/ ga_model a = "Mann")%string ->
  scales_of stored a = Ok (CovScales L T E0) -> scales_of stored' a' = Ok (CovScales L T E0') -> 0 < E0 -> 0 < E0' ->
  same_outputs G gauss (construct stored G seeded (vf_sampler hyp net h) C2 low_make a config w)
                       (construct stored' G seeded (vf_sampler hyp net h') C2 low_make a' config w).
Proof.
  intros hyp net h h' stored stored' G gauss seeded C2 low_make a a' config w L T E0 E0' (S1 & S2 & S3 & S4) HM Hh HS HS' P P'.
  unfold construct. rewrite HS, HS'. cbn [bind cs_L cs_Gamma]. rewrite <- S1, <- S2, <- S3, <- S4, <- HM.
  destruct (make_geometry (ga_dims a) (ga_levels a) L T (ga_blend a)) as [geo|e]; [|reflexivity]. cbn [bind].
  assert (Hc : 0 < E0' / E0) by (apply Rdiv_lt_0_compat; assumption).
  assert (HC : forall f, vf_sampler hyp net h' (ga_model a) (CovScales L T E0') geo f = fmap (fun v => sqrt (E0' / E0) * v) (vf_sampler hyp net h (ga_model a) (CovScales L T E0) geo f)).
  { intros f. replace E0' with (E0' / E0 * E0) at 1 by (field; lra). rewrite vf_sampler_scale by lra. f_equal.
    destruct Hh as [<- | Hm]; [reflexivity|]. apply vf_sampler_href. exact Hm. }
  destruct config as [cfg|].
  - destruct (low_make cfg (w_global G w)) as [[lv g]|e]; [|reflexivity]. cbn [bind fst snd same_outputs]. split; [reflexivity|].
    intros calls. apply calls_alike with (c := sqrt (E0' / E0)); [apply sqrt_lt_R0; exact Hc|exact HC|]. repeat split.
  - cbn [same_outputs]. split; [reflexivity|].
    intros calls. apply calls_alike with (c := sqrt (E0' / E0)); [apply sqrt_lt_R0; exact Hc|exact HC|]. repeat split.
Qed.

Lemma classic_scales : forall stored a L T E, (ga_model a = "VK" \/ ga_model a = "Mann")%string ->
  ga_L a = Some L -> ga_T a = Some T -> ga_E a = Some E -> 0 < E -> ga_ustar a <> 0 -> 0 < ga_href a ->
  exists E0, scales_of stored a = Ok (CovScales L T E0) /\ 0 < E0.
Proof.
  intros stored a L T E HM HL HT HE PE Hu Hh. exists (E * (ga_ustar a)^2 * Rpower (ga_href a) (- (2/3))). split.
  - unfold scales_of. rewrite HL, HT, HE. unfold xpow. destruct (Rlt_dec 0 (ga_href a)); [|contradiction].
    destruct HM as [-> | ->]; reflexivity.
  - apply Rmult_lt_0_compat; [|apply exp_pos]. apply Rmult_lt_0_compat; [exact PE|]. rewrite <- Rsqr_pow2. apply Rsqr_pos_lt. exact Hu.
Qed.

Lemma stored_scales : forall stored a p L T M, ga_model a = "DRD"%string -> ga_path a = Some p -> stored p = Ok (L, T, M) -> 0 < M ->
  ga_ustar a <> 0 -> 0 < ga_href a -> exists E0, scales_of stored a = Ok (CovScales (L * ga_href a) T E0) /\ 0 < E0.
Proof.
  intros stored a p L T M HM Hp Hs PM Hu Hh. exists (4 * PI * Rpower L (- (5/3)) * M * (ga_ustar a)^2 * Rpower (ga_href a) (- (2/3))). split.
  - unfold scales_of. rewrite HM, Hp, Hs. unfold xpow. destruct (Rlt_dec 0 (ga_href a)); [|contradiction]. reflexivity.
  - pose proof PI_RGT_0. apply Rmult_lt_0_compat; [|apply exp_pos]. apply Rmult_lt_0_compat; [|rewrite <- Rsqr_pow2; apply Rsqr_pos_lt; exact Hu].
    apply Rmult_lt_0_compat; [|exact PM]. apply Rmult_lt_0_compat; [lra|apply exp_pos].
Qed.

Lemma classic_intensity : forall hyp net stored G (gauss : G -> R * G) (seeded : Z -> G) C2 (low_make : C2 -> G -> res (low_view * G)) a a' config w L T E E',
  (ga_model a = "VK" \/ ga_model a = "Mann")%string -> ga_model a = ga_model a' -> same_setup a a' ->
  ga_L a = Some L -> ga_L a' = Some L -> ga_T a = Some T -> ga_T a' = Some T -> ga_E a = Some E -> ga_E a' = Some E' ->
  0 < E -> 0 < E' -> ga_ustar a <> 0 -> ga_ustar a' <> 0 -> 0 < ga_href a -> 0 < ga_href a' ->
  same_outputs G gauss (construct stored G seeded (vf_sampler hyp net (ga_href a)) C2 low_make a config w)
                       (construct stored G seeded (vf_sampler hyp net (ga_href a')) C2 low_make a' config w).
Proof.
  intros hyp net stored G gauss seeded C2 low_make a a' config w L T E E' HM HMM HS HL HL' HT HT' HE HE' PE PE' Hu Hu' Hh Hh'.
  destruct (classic_scales stored a L T E HM HL HT HE PE Hu Hh) as (E0 & S0 & P0).
  assert (HM' : (ga_model a' = "VK" \/ ga_model a' = "Mann")%string) by (rewrite <- HMM; exact HM).
  destruct (classic_scales stored a' L T E' HM' HL' HT' HE' PE' Hu' Hh') as (E1 & S1 & P1).
  apply (construct_alike hyp net _ _ stored stored G gauss seeded C2 low_make a a' config w L T E0 E1 HS HMM (or_intror HM) S0 S1 P0 P1).
Qed.

Lemma fitted_intensity : forall hyp net stored stored' G (gauss : G -> R * G) (seeded : Z -> G) C2 (low_make : C2 -> G -> res (low_view * G)) a a' config w p p' L T M M',
  ga_model a = "DRD"%string -> ga_model a' = "DRD"%string -> same_setup a a' -> ga_href a = ga_href a' ->
  ga_path a = Some p -> ga_path a' = Some p' -> stored p = Ok (L, T, M) -> stored' p' = Ok (L, T, M') ->
  0 < M -> 0 < M' -> ga_ustar a <> 0 -> ga_ustar a' <> 0 -> 0 < ga_href a ->
  same_outputs G gauss (construct stored G seeded (vf_sampler hyp net (ga_href a)) C2 low_make a config w)
                       (construct stored' G seeded (vf_sampler hyp net (ga_href a')) C2 low_make a' config w).
Proof.
  intros hyp net stored stored' G gauss seeded C2 low_make a a' config w p p' L T M M' HM HM' HS HH Hp Hp' Hs Hs' PM PM' Hu Hu' Hh.
  destruct (stored_scales stored a p L T M HM Hp Hs PM Hu Hh) as (E0 & S0 & P0).
  assert (Hh' : 0 < ga_href a') by (rewrite <- HH; exact Hh).
  destruct (stored_scales stored' a' p' L T M' HM' Hp' Hs' PM' Hu' Hh') as (E1 & S1 & P1). rewrite <- HH in S1 at 1.
  apply (construct_alike hyp net _ _ stored stored' G gauss seeded C2 low_make a a' config w (L * ga_href a) T E0 E1 HS (eq_trans HM (eq_sym HM')) (or_introl HH) S0 S1 P0 P1).
Qed.
