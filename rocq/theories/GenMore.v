(** Normalisation, histories of generate calls, seams, profiles. *)

From Coq Require Import String Reals Lra Lia List Arith ZArith Bool.
From Verif Require Import Prelude SpectraModel OpsProofs GenModel GenSpec GenProofs.
Import ListNotations.
Open Scope R_scope.

(** ** Entries *)

Lemma entries_fmap : forall A B (h : A -> B) f, entries (fmap h f) = map h (entries f).
Proof.
  intros A B h f. unfold entries, fmap. rewrite concat_map, !map_map. f_equal. apply map_ext. intros p.
  rewrite concat_map, !map_map. f_equal. apply map_ext. intros c. rewrite concat_map, !map_map. f_equal. apply map_ext.
  intros [[a b] d]. reflexivity.
Qed.

Lemma any_nonzero_iff : forall f, any_nonzero f = true <-> nonzero f.
Proof.
  intros f. unfold any_nonzero, nonzero. rewrite existsb_exists. split; intros (v & Hin & Hv); exists v; split; try exact Hin.
  - unfold Reqb in Hv. destruct (Req_EM_T v 0); [discriminate|assumption].
  - unfold Reqb. destruct (Req_EM_T v 0); [contradiction|reflexivity].
Qed.

Lemma fmap_shaped : forall A B (h : A -> B) nx ny nz f, shaped nx ny nz f -> shaped nx ny nz (fmap h f).
Proof.
  intros A B h nx ny nz f [Hl Hp]. split; [unfold fmap; rewrite map_length; exact Hl|].
  unfold fmap. apply Forall_forall. intros p Hin. apply in_map_iff in Hin. destruct Hin as (q & <- & Hq).
  rewrite Forall_forall in Hp. destruct (Hp q Hq) as [H1 H2]. rewrite map_length. split; [exact H1|].
  apply Forall_forall. intros c Hc. apply in_map_iff in Hc. destruct Hc as (c' & <- & Hc'). rewrite map_length.
  rewrite Forall_forall in H2. apply H2. exact Hc'.
Qed.

Lemma sum_sq_nonneg : forall l, 0 <= Rsum (map (fun v => v^2) l).
Proof. induction l as [|x l IH]; cbn [map]; unfold Rsum in *; cbn [fold_right]; [lra|]. pose proof (pow2_ge_0 x). lra. Qed.

Lemma sum_sq_pos : forall l v, In v l -> v <> 0 -> 0 < Rsum (map (fun v => v^2) l).
Proof.
  induction l as [|x l IH]; intros v Hin Hv; [contradiction|]. cbn [map]. unfold Rsum. cbn [fold_right].
  pose proof (sum_sq_nonneg l) as S. unfold Rsum in S. destruct Hin as [->|Hin].
  - pose proof (Rsqr_pos_lt v Hv) as Q; rewrite Rsqr_pow2 in Q. lra.
  - pose proof (IH v Hin Hv) as P. unfold Rsum in P. pose proof (pow2_ge_0 x). lra.
Qed.

Lemma mean_sq_pos : forall f, nonzero f -> 0 < Rmean (map (fun v => v^2) (entries f)).
Proof.
  intros f (v & Hin & Hv). unfold Rmean. apply Rdiv_lt_0_compat; [apply (sum_sq_pos _ v); assumption|].
  rewrite map_length. apply lt_0_INR. destruct (entries f); [contradiction|cbn; lia].
Qed.

Lemma Rsum_scale : forall c l, Rsum (map (fun v => c * v) l) = c * Rsum l.
Proof. intros c l. unfold Rsum. induction l as [|x l IH]; cbn [map fold_right]; [ring|]. rewrite IH. ring. Qed.

Lemma Rmean_scale : forall c l, Rmean (map (fun v => c * v) l) = c * Rmean l.
Proof. intros c l. unfold Rmean. rewrite Rsum_scale, map_length. unfold Rdiv. ring. Qed.

(** ** Profiles *)

Lemma z_space_length : forall g, length (z_space g) = nodes (g_lz g).
Proof. intros. unfold z_space. apply linspace_length. Qed.

Lemma mean_profile_length : forall g a prof, mean_profile g a = Ok prof -> length prof = nodes (g_lz g).
Proof.
  intros g a prof H. unfold mean_profile in H. destruct (String.eqb (p_type a) "LOG"); [|destruct (p_exp a); [|discriminate]];
    injection H as <-; rewrite map_length; apply z_space_length.
Qed.

Lemma bad_dec : forall a, {bad_profile a} + {~ bad_profile a}.
Proof.
  intros a. unfold bad_profile.
  destruct (string_dec (p_type a) "LOG") as [E1|E1]; destruct (string_dec (p_type a) "PL") as [E2|E2];
  destruct (Rle_dec (p_zref a) 0) as [H1|H1]; destruct (Rle_dec (p_uref a) 0) as [H2|H2]; destruct (Rle_dec (p_z0 a) 0) as [H3|H3];
  destruct (p_exp a) as [e|] eqn:E; try (left; tauto);
  try (right; intros [[A B]|[A|[A|[A|[A B]]]]]; try contradiction; try congruence; fail).
Qed.

Lemma normalize_bad : forall g a block, bad_profile a -> normalize_block g a block = Err ValueError.
Proof.
  intros g a block H. unfold normalize_block. destruct (negb (any_nonzero block)); [reflexivity|].
  destruct (String.eqb_spec (p_type a) "LOG") as [E1|E1]; destruct (String.eqb_spec (p_type a) "PL") as [E2|E2]; cbn [orb negb andb].
  - congruence.
  - unfold Rleb. destruct (Rle_dec (p_zref a) 0); [reflexivity|]. destruct (Rle_dec (p_uref a) 0); [reflexivity|].
    destruct (Rle_dec (p_z0 a) 0); [reflexivity|]. cbn [orb]. exfalso. unfold bad_profile in H.
    destruct H as [[A B]|[A|[A|[A|[A B]]]]]; congruence.
  - unfold Rleb. destruct (Rle_dec (p_zref a) 0); [reflexivity|]. destruct (Rle_dec (p_uref a) 0); [reflexivity|].
    destruct (Rle_dec (p_z0 a) 0); [reflexivity|]. cbn [orb]. destruct (p_exp a) eqn:E; [|reflexivity].
    exfalso. unfold bad_profile in H. destruct H as [[A B]|[A|[A|[A|[A B]]]]]; congruence.
  - reflexivity.
Qed.

Lemma add_profile_combine : forall sd c prof,
  add_profile sd c prof
  = map (fun vm => match vm with ((a, b, d), m) => (xadd (Fin a) m, Fin b, Fin d) end)
        (combine (map (fun v => match v with (a, b, d) => (a / sd, b / sd, d / sd) end) c) prof).
Proof.
  intros sd c. induction c as [|[[a b] d] c IH]; intros [|m prof]; try reflexivity.
  cbn [add_profile map combine]. rewrite IH. cbn [xadd]. rewrite !Rplus_0_r. reflexivity.
Qed.

Lemma normalize_good : forall g a block nx ny, ~ bad_profile a -> nonzero block -> shaped nx ny (nodes (g_lz g)) block ->
  exists prof sd, mean_profile g a = Ok prof /\ 0 < sd
  /\ unit_energy (fmap (fun v => v / sd) block)
  /\ normalize_block g a block = Ok (with_profile prof (fmap (fun v => v / sd) block)).
Proof.
  intros g a block nx ny Hb Hn Hs. pose proof (mean_sq_pos block Hn) as Hm.
  set (m := Rmean (map (fun v => v^2) (entries block))) in *.
  assert (Hsd : 0 < sqrt m) by (apply sqrt_lt_R0; exact Hm).
  assert (HP : exists prof, mean_profile g a = Ok prof).
  { unfold mean_profile. destruct (String.eqb_spec (p_type a) "LOG") as [E|E]; [eexists; reflexivity|].
    destruct (p_exp a) as [e|] eqn:Ee; [eexists; reflexivity|]. exfalso. apply Hb. unfold bad_profile.
    destruct (string_dec (p_type a) "PL"); [|left; split; assumption]. right; right; right; right. split; assumption. }
  destruct HP as (prof & HP). exists prof, (sqrt m). split; [exact HP|]. split; [exact Hsd|]. split.
  - unfold unit_energy. rewrite entries_fmap, map_map.
    replace (map (fun x => (x / sqrt m)^2) (entries block)) with (map (fun v => / m * v) (map (fun v => v^2) (entries block))).
    + rewrite Rmean_scale. fold m. field. lra.
    + rewrite map_map. apply map_ext. intros x. unfold Rdiv. rewrite Rpow_mult_distr, pow_inv.
      replace (sqrt m ^ 2) with m by (cbn [pow]; rewrite Rmult_1_r, sqrt_sqrt by lra; reflexivity). ring.
  - unfold normalize_block. replace (negb (any_nonzero block)) with false.
    2: { symmetry. apply Bool.negb_false_iff. apply any_nonzero_iff. exact Hn. }
    fold m.
    assert (T : (String.eqb (p_type a) "LOG" || String.eqb (p_type a) "PL")%bool = true).
    { destruct (String.eqb_spec (p_type a) "LOG") as [E1|E1]; [reflexivity|]. destruct (String.eqb_spec (p_type a) "PL") as [E2|E2]; [reflexivity|].
      exfalso. apply Hb. left. split; assumption. }
    rewrite T. cbn [negb].
    replace (Rleb (p_zref a) 0 || Rleb (p_uref a) 0 || Rleb (p_z0 a) 0)%bool with false.
    2: { symmetry. unfold Rleb. destruct (Rle_dec (p_zref a) 0) as [Q|Q]; [exfalso; apply Hb; unfold bad_profile; tauto|].
         destruct (Rle_dec (p_uref a) 0) as [Q2|Q2]; [exfalso; apply Hb; unfold bad_profile; tauto|].
         destruct (Rle_dec (p_z0 a) 0) as [Q3|Q3]; [exfalso; apply Hb; unfold bad_profile; tauto|]. reflexivity. }
    replace (String.eqb (p_type a) "PL" && match p_exp a with None => true | Some _ => false end)%bool with false.
    2: { symmetry. destruct (String.eqb_spec (p_type a) "PL") as [E2|E2]; [|reflexivity]. destruct (p_exp a) eqn:Ee; [reflexivity|].
         exfalso. apply Hb. unfold bad_profile. tauto. }
    rewrite HP. cbn [bind]. pose proof (mean_profile_length _ _ _ HP) as HL.
    replace (forallb _ block) with true.
    2: { symmetry. apply forallb_forall. intros p Hin. apply forallb_forall. intros c Hc. apply Nat.eqb_eq. rewrite HL.
         destruct Hs as [_ Hs]. rewrite Forall_forall in Hs. destruct (Hs p Hin) as [_ Hq]. rewrite Forall_forall in Hq. apply Hq. exact Hc. }
    apply f_equal. unfold with_profile, fmap. rewrite map_map. apply map_ext. intros p. rewrite map_map. apply map_ext. intros c.
    apply add_profile_combine.
Qed.

Lemma normalize_zero : forall g a block, ~ nonzero block -> normalize_block g a block = Err ValueError.
Proof.
  intros g a block H. unfold normalize_block. replace (any_nonzero block) with false; [reflexivity|].
  symmetry. destruct (any_nonzero block) eqn:E; [|reflexivity]. apply any_nonzero_iff in E. contradiction.
Qed.

Lemma normalize_iff : forall g a block nx ny, nonzero block -> shaped nx ny (nodes (g_lz g)) block ->
  (normalize_block g a block = Err ValueError <-> bad_profile a)
  /\ (~ bad_profile a -> exists f, normalize_block g a block = Ok f).
Proof.
  intros g a block nx ny Hn Hs. split.
  - split; [|apply normalize_bad]. intros H. destruct (bad_dec a) as [B|B]; [exact B|].
    destruct (normalize_good g a block nx ny B Hn Hs) as (prof & sd & _ & _ & _ & E). rewrite E in H. discriminate.
  - intros B. destruct (normalize_good g a block nx ny B Hn Hs) as (prof & sd & _ & _ & _ & E). eexists. exact E.
Qed.

Lemma normalize_scale : forall g a block nx ny c, 0 < c -> shaped nx ny (nodes (g_lz g)) block ->
  normalize_block g a (fmap (fun v => c * v) block) = normalize_block g a block.
Proof.
  intros g a block nx ny c Hc Hs.
  assert (Hnz : any_nonzero (fmap (fun v => c * v) block) = any_nonzero block).
  { unfold any_nonzero. rewrite entries_fmap. induction (entries block) as [|x l IH]; [reflexivity|]. cbn [map existsb].
    rewrite IH. f_equal. f_equal. unfold Reqb. destruct (Req_EM_T (c * x) 0) as [E|E]; destruct (Req_EM_T x 0) as [E'|E']; try reflexivity.
    - apply Rmult_integral in E. destruct E; lra.
    - subst x. rewrite Rmult_0_r in E. contradiction. }
  unfold normalize_block. rewrite Hnz.
  destruct (negb (any_nonzero block)); [reflexivity|]. destruct (negb _); [reflexivity|]. destruct (_ || _)%bool; [reflexivity|].
  destruct (_ && _)%bool; [reflexivity|]. destruct (mean_profile g a) as [prof|e] eqn:HP; [|reflexivity]. cbn [bind].
  assert (Hsd : sqrt (Rmean (map (fun v => v^2) (entries (fmap (fun v => c * v) block)))) = c * sqrt (Rmean (map (fun v => v^2) (entries block)))).
  { rewrite entries_fmap, map_map.
    replace (map (fun x => (c * x)^2) (entries block)) with (map (fun v => c^2 * v) (map (fun v => v^2) (entries block))).
    - rewrite Rmean_scale. rewrite sqrt_mult_alt by apply pow2_ge_0. rewrite sqrt_pow2 by lra. reflexivity.
    - rewrite map_map. apply map_ext. intros x. ring. }
  rewrite Hsd. clear Hsd. set (sd := sqrt _). pose proof (mean_profile_length _ _ _ HP) as HL.
  assert (F1 : forall f : field R, shaped nx ny (nodes (g_lz g)) f -> forallb (fun p => forallb (fun c => (length c =? length prof)%nat) p) f = true).
  { intros f [_ Hf]. apply forallb_forall. intros p Hin. apply forallb_forall. intros cc Hcc. apply Nat.eqb_eq. rewrite HL.
    rewrite Forall_forall in Hf. destruct (Hf p Hin) as [_ Hq]. rewrite Forall_forall in Hq. apply Hq. exact Hcc. }
  rewrite (F1 block Hs), (F1 _ (fmap_shaped _ _ (fun v => c * v) _ _ _ _ Hs)). f_equal.
  unfold fmap. rewrite map_map. apply map_ext. intros p. rewrite map_map. apply map_ext. intros cl.
  rewrite !add_profile_combine. f_equal. f_equal. rewrite map_map. apply map_ext. intros [[x y] z].
  assert (Q : forall t, c * t / (c * sd) = t / sd).
  { intros t. unfold Rdiv. destruct (Req_dec sd 0) as [E|E].
    - rewrite E, Rmult_0_r, Rinv_0. ring.
    - field. split; [exact E|lra]. }
  rewrite !Q. reflexivity.
Qed.

(** ** Shapes of delivered blocks *)

Lemma with_profile_shaped : forall prof nx ny nz f, length prof = nz -> shaped nx ny nz f -> shaped nx ny nz (with_profile prof f).
Proof.
  intros prof nx ny nz f HL [Hl Hp]. unfold with_profile. split; [rewrite map_length; exact Hl|].
  apply Forall_forall. intros p Hin. apply in_map_iff in Hin. destruct Hin as (q & <- & Hq).
  rewrite Forall_forall in Hp. destruct (Hp q Hq) as [H1 H2]. rewrite map_length. split; [exact H1|].
  apply Forall_forall. intros c Hc. apply in_map_iff in Hc. destruct Hc as (c' & <- & Hc'). rewrite map_length, combine_length, HL.
  rewrite Forall_forall in H2. rewrite (H2 c' Hc'). lia.
Qed.

Lemma shaped_fits : forall A nx ny nz (f : field A), shaped nx ny nz f -> fits ny nz f = true.
Proof.
  intros A nx ny nz f [_ H]. apply forallb_forall. intros p Hin. rewrite Forall_forall in H. destruct (H p Hin) as [H1 H2].
  apply andb_true_intro. split; [apply Nat.eqb_eq; exact H1|]. apply forallb_forall. intros c Hc. apply Nat.eqb_eq.
  rewrite Forall_forall in H2. apply H2. exact Hc.
Qed.

Lemma block_x_length : forall g i nx, length (block_x g i nx) = nx.
Proof. intros. unfold block_x. rewrite map_length, seq_length. reflexivity. Qed.
Lemma block_y_length : forall g L2, length (block_y g L2) = g_Ny g.
Proof. intros. unfold block_y. rewrite map_length, seq_length. reflexivity. Qed.

Lemma add_slice_shaped : forall interp xs ys nx ny nz f, length xs = nx -> length ys = ny -> shaped nx ny nz f ->
  shaped nx ny nz (add_slice interp xs ys f).
Proof.
  intros interp xs ys nx ny nz f Hx Hy [Hl Hp]. unfold add_slice. split; [rewrite map_length, combine_length; lia|].
  apply Forall_forall. intros p Hin. apply in_map_iff in Hin. destruct Hin as ([x q] & <- & Hq).
  apply in_combine_r in Hq. rewrite Forall_forall in Hp. destruct (Hp q Hq) as [H1 H2].
  cbn [fst snd]. rewrite map_length, combine_length. split; [lia|].
  apply Forall_forall. intros c Hc. apply in_map_iff in Hc. destruct Hc as ([y c'] & <- & Hc'). apply in_combine_r in Hc'.
  cbn [fst snd]. rewrite map_length. rewrite Forall_forall in H2. apply H2. exact Hc'.
Qed.

Lemma add_low_shaped : forall g low i nx nz f f', shaped nx (g_Ny g) nz f -> add_low g low i f = Ok f' -> shaped nx (g_Ny g) nz f'.
Proof.
  intros g low i nx nz f f' Hs H. unfold add_low in H. destruct low as [lv|]; [|injection H as <-; exact Hs].
  destruct (lv_interp lv) as [interp|]; [|discriminate]. destruct (forallb _ f); [|discriminate]. injection H as <-.
  apply add_slice_shaped; [|apply block_y_length|exact Hs]. rewrite block_x_length. apply Hs.
Qed.


Lemma add_low_ok : forall g low i nx nz f, low_ready low -> shaped nx (g_Ny g) nz f -> exists f', add_low g low i f = Ok f'.
Proof.
  intros g low i nx nz f Hr [Hl Hp]. unfold add_low. destruct low as [lv|]; [|eexists; reflexivity]. cbn [low_ready] in Hr.
  destruct (lv_interp lv) as [interp|]; [|contradiction]. replace (forallb _ f) with true; [eexists; reflexivity|].
  symmetry. apply forallb_forall. intros p Hin. apply Nat.eqb_eq. rewrite Forall_forall in Hp. apply (Hp p Hin).
Qed.

Section History.

Variable G : Type.
Variable gauss : G -> R * G.
Variable geo : geometry.
Variable std : R.
Variable correlate : field R -> field R.
Variable low : option low_view.
Hypothesis Hsound : sound geo.
Hypothesis Hshape : shape_preserving correlate.

Local Notation block := (delivered_block G gauss geo std correlate).
Local Notation at_k := (at_block G gauss geo std).
Local Notation one_call := (generate_one gauss geo std correlate low).
Local Notation loop := (generate_loop gauss geo std correlate low).

Lemma Nz_nodes : g_Nz geo = nodes (g_lz geo).
Proof. apply Hsound. Qed.

Lemma block_shape : forall g0 k, shaped (g_Nx geo) (g_Ny geo) (nodes (g_lz geo)) (block g0 k).
Proof. intros. rewrite <- Nz_nodes. apply delivered_shaped; assumption. Qed.

(** What an accepted block adds to the total field. *)
Definition added (a : profile_args) (g0 : G) (k i : nat) (f : field xr) : Prop :=
  exists prof sd h, mean_profile geo a = Ok prof /\ 0 < sd /\ h = fmap (fun v => v / sd) (block g0 k)
  /\ unit_energy h /\ add_low geo low i (with_profile prof h) = Ok f /\ shaped (g_Nx geo) (g_Ny geo) (g_Nz geo) f.

Lemma one_spec : forall a i g0 k s, at_k g0 k s ->
  (~ bad_profile a /\ nonzero (block g0 k) /\ low_ready low /\
   exists f s', added a g0 k i f /\ one_call a i s = (Ok tt, s') /\ at_k g0 (S k) s' /\ s_total s' = s_total s ++ f)
  \/ ((bad_profile a \/ ~ nonzero (block g0 k) \/ ~ low_ready low) /\
      exists e s', one_call a i s = (Err e, s') /\ at_k g0 (S k) s' /\ s_total s' = s_total s
      /\ (bad_profile a \/ ~ nonzero (block g0 k) -> e = ValueError)).
Proof.
  intros a i g0 k s Hk. destruct (generate_block_at G gauss geo std correlate g0 k s Hsound Hk) as (s1 & E & Hk1 & Ht).
  unfold generate_one. rewrite E. destruct (bad_dec a) as [B|B].
  { right. split; [tauto|]. rewrite normalize_bad by exact B. cbn [bind]. exists ValueError, s1. tauto. }
  destruct (any_nonzero (block g0 k)) eqn:N.
  2: { assert (~ nonzero (block g0 k)) by (rewrite <- any_nonzero_iff, N; discriminate).
       right. split; [tauto|]. rewrite normalize_zero by assumption. cbn [bind]. exists ValueError, s1. tauto. }
  apply any_nonzero_iff in N.
  destruct (normalize_good geo a (block g0 k) _ _ B N (block_shape g0 k)) as (prof & sd & HP & Hsd & HU & EN).
  rewrite EN. cbn [bind].
  assert (SH : shaped (g_Nx geo) (g_Ny geo) (g_Nz geo) (with_profile prof (fmap (fun v => v / sd) (block g0 k)))).
  { apply with_profile_shaped; [rewrite Nz_nodes; eapply mean_profile_length; exact HP|].
    apply fmap_shaped. rewrite Nz_nodes. apply block_shape. }
  destruct low as [lv|] eqn:EL.
  - destruct (lv_interp lv) as [interp|] eqn:EI.
    + left. assert (LR : low_ready (Some lv)) by (cbn; rewrite EI; discriminate).
      split; [exact B|]. split; [exact N|]. split; [exact LR|].
      destruct (add_low_ok geo (Some lv) i _ _ _ LR SH) as (f' & EA). rewrite EA.
      pose proof (add_low_shaped geo (Some lv) i _ _ _ _ SH EA) as SF. rewrite (shaped_fits _ _ _ _ _ SF).
      exists f'. eexists. split; [|split; [reflexivity|]].
      * exists prof, sd, (fmap (fun v => v / sd) (block g0 k)). rewrite EL. tauto.
      * split; [exact Hk1|]. cbn [s_total]. rewrite Ht. reflexivity.
    + right. assert (LR : ~ low_ready (Some lv)) by (cbn; rewrite EI; tauto). split; [tauto|].
      unfold add_low. rewrite EI. exists RuntimeError, s1. split; [reflexivity|]. split; [exact Hk1|]. split; [exact Ht|]. intros [?|?]; contradiction.
  - left. split; [exact B|]. split; [exact N|]. split; [exact I|].
    cbn [add_low]. rewrite (shaped_fits _ _ _ _ _ SH). eexists. eexists. split; [|split; [reflexivity|]].
    + exists prof, sd, (fmap (fun v => v / sd) (block g0 k)). rewrite EL. cbn [add_low]. tauto.
    + split; [exact Hk1|]. cbn [s_total]. rewrite Ht. reflexivity.
Qed.

(** Outcome of a run of [n] blocks: [j] of them are appended. *)
Lemma loop_spec : forall a n i g0 k s, at_k g0 k s ->
  exists j fs r s', (j <= n)%nat /\ loop a n i s = (r, s')
  /\ s_total s' = s_total s ++ concat fs /\ length fs = j
  /\ (forall t f, nth_error fs t = Some f -> added a g0 (k + t) (i + t) f)
  /\ ((r = Ok tt /\ j = n /\ at_k g0 (k + n) s') \/ (exists e, r = Err e /\ (j < n)%nat /\ at_k g0 (k + j + 1) s')).
Proof.
  intros a n. induction n as [|n IH]; intros i g0 k s Hk.
  { exists 0%nat, [], (Ok tt), s. split; [lia|]. split; [reflexivity|]. split; [cbn; rewrite app_nil_r; reflexivity|]. split; [reflexivity|].
    split; [intros [|t] f H; discriminate H|]. left. rewrite Nat.add_0_r. tauto. }
  cbn [generate_loop]. destruct (one_spec a i g0 k s Hk) as [(B & N & LR & f & s1 & HA & E & Hk1 & Ht)|(_ & e & s1 & E & Hk1 & Ht & _)].
  - rewrite E. destruct (IH (S i) g0 (S k) s1 Hk1) as (j & fs & r & s' & Hj & EL & HT & HL & HF & HR).
    exists (S j), (f :: fs), r, s'. split; [lia|]. split; [exact EL|]. split; [cbn [concat]; rewrite HT, Ht, app_assoc; reflexivity|].
    split; [cbn; lia|]. split.
    + intros [|t] f' H; [cbn in H; injection H as <-; rewrite !Nat.add_0_r; exact HA|].
      cbn in H. apply HF in H. replace (k + S t)%nat with (S k + t)%nat by lia. replace (i + S t)%nat with (S i + t)%nat by lia. exact H.
    + destruct HR as [(-> & -> & H)|(e & -> & Hlt & H)].
      * left. replace (k + S n)%nat with (S k + n)%nat by lia. tauto.
      * right. exists e. replace (k + S j + 1)%nat with (S k + j + 1)%nat by lia. split; [reflexivity|]. split; [lia|exact H].
  - rewrite E. exists 0%nat, [], (Err e), s1. split; [lia|]. split; [reflexivity|]. split; [cbn; rewrite app_nil_r; exact Ht|]. split; [reflexivity|].
    split; [intros [|t] f H; discriminate H|]. right. exists e. replace (k + 0 + 1)%nat with (S k) by lia. split; [reflexivity|]. split; [lia|exact Hk1].
Qed.

Lemma concat_rows : forall a g0 (fs : list (field xr)) (kk ii : nat -> nat),
  (forall t f, nth_error fs t = Some f -> added a g0 (kk t) (ii t) f) ->
  shaped (length fs * g_Nx geo) (g_Ny geo) (g_Nz geo) (concat fs).
Proof.
  intros a g0 fs. induction fs as [|f fs IH]; intros kk ii H; [split; [reflexivity|constructor]|].
  destruct (H 0%nat f eq_refl) as (prof & sd & h & _ & _ & _ & _ & _ & [Hl Hp]).
  destruct (IH (fun t => kk (S t)) (fun t => ii (S t)) (fun t f' Hf => H (S t) f' Hf)) as [Hl' Hp'].
  cbn [concat]. split; [rewrite app_length, Hl, Hl'; cbn [length Nat.mul]; lia|]. apply Forall_app. tauto.
Qed.

End History.
