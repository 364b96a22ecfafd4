(** Proofs about the low-frequency generator: grids, extraction, interpolation. *)

From Coq Require Import Reals List ZArith Bool Lia Lra.
From Coquelicot Require Import Complex.
From Verif Require Import Prelude GenModel GenSpec GenProofs GenPhys DftModel DftSpec LowModel LowSpec.
Import ListNotations.
Open Scope R_scope.

Lemma Rltb_true : forall x y, Rltb x y = true <-> x < y.
Proof. intros. unfold Rltb. destruct (Rlt_dec x y); split; intros; try congruence; lra. Qed.
Lemma Rltb_false : forall x y, Rltb x y = false <-> y <= x.
Proof. intros. unfold Rltb. destruct (Rlt_dec x y); split; intros; try congruence; lra. Qed.
Lemma Rleb_true : forall x y, Rleb x y = true <-> x <= y.
Proof. intros. unfold Rleb. destruct (Rle_dec x y); split; intros; try congruence; lra. Qed.
Lemma Rleb_false : forall x y, Rleb x y = false <-> y < x.
Proof. intros. unfold Rleb. destruct (Rle_dec x y); split; intros; try congruence; lra. Qed.

(** ** Grid *)

Lemma even_count_spec : forall n, (0 < n)%Z -> (n <= even_count n <= n + 1)%Z /\ Z.Even (even_count n) /\ (2 <= even_count n)%Z.
Proof.
  intros n Hn. unfold even_count. destruct (Z.ltb_spec 0 n) as [_|H]; [|lia].
  pose proof (Z.mod_pos_bound n 2 ltac:(lia)) as Hm.
  pose proof (Z.div_mod n 2 ltac:(lia)) as Hd. rewrite Z.max_l by lia.
  split; [lia|]. split; [|lia]. exists (n / 2 + n mod 2)%Z. lia.
Qed.

Lemma pow2_INR : forall e, INR (2 ^ e) = 2 ^ e.
Proof. intros. rewrite pow_INR. reflexivity. Qed.

Lemma pow2_pos : forall e, 0 < INR (2 ^ e).
Proof. intros. rewrite pow2_INR. apply pow_lt. lra. Qed.

Record grid_facts (cfg : low_config) (g : low_grid) : Prop :=
  { gf_L1 : lg_L1 g = asked_L1 cfg; gf_L2 : lg_L2 g = asked_L2 cfg;
    gf_N1 : lg_N1 g = (2 ^ lc_e1 cfg)%nat; gf_N2 : lg_N2 g = (2 ^ lc_e2 cfg)%nat;
    gf_dx : lg_dx g = asked_dx cfg; gf_dy : lg_dy g = asked_dy cfg;
    gf_d : lg_cdx g = Rmin (asked_dx cfg) (asked_dy cfg) /\ lg_cdy g = Rmin (asked_dx cfg) (asked_dy cfg);
    gf_dpos : 0 < Rmin (asked_dx cfg) (asked_dy cfg);
    gf_c1 : lg_cL1 g = INR (lg_cN1 g) * lg_cdx g; gf_c2 : lg_cL2 g = INR (lg_cN2 g) * lg_cdy g;
    gf_e1 : Nat.Even (lg_cN1 g); gf_e2 : Nat.Even (lg_cN2 g);
    gf_21 : (2 <= lg_cN1 g)%nat; gf_22 : (2 <= lg_cN2 g)%nat;
    gf_u1 : (lg_N1 g <= lg_cN1 g)%nat; gf_u2 : (lg_N2 g <= lg_cN2 g)%nat;
    gf_t1 : Rmax (asked_L1 cfg) (5 * lc_L cfg) <= lg_cL1 g; gf_t2 : Rmax (asked_L2 cfg) (5 * lc_L cfg) <= lg_cL2 g;
    gf_s1 : (INR (lg_cN1 g) - 2) * lg_cdx g < Rmax (asked_L1 cfg) (5 * lc_L cfg);
    gf_s2 : (INR (lg_cN2 g) - 2) * lg_cdy g < Rmax (asked_L2 cfg) (5 * lc_L cfg) }.

Lemma direction : forall d t L N, 0 < d -> d <= L / INR N -> 0 < INR N -> L <= t -> 0 < t ->
  let n := even_count (Zceil (t / d)) in
  (2 <= n)%Z /\ Z.Even n /\ t <= IZR n * d /\ (IZR n - 2) * d < t /\ (Z.of_nat N <= n)%Z.
Proof.
  intros d t L N Hd HL HN HLt Ht n.
  assert (Htd : 0 < t / d) by (apply Rdiv_lt_0_compat; lra).
  pose proof (Zceil_pos _ Htd) as Hc. pose proof (Zceil_spec (t / d)) as [Hc1 Hc2].
  destruct (even_count_spec _ Hc) as [[Ha Hb] [He H2]]. fold n in Ha, Hb, He, H2.
  assert (Et : t / d * d = t) by (field; lra).
  split; [exact H2|]. split; [exact He|]. apply IZR_le in Ha, Hb. rewrite plus_IZR in Hb. split; [|split].
  - apply Rle_trans with (t / d * d); [lra|]. apply Rmult_le_compat_r; lra.
  - apply Rlt_le_trans with (t / d * d); [|lra]. apply Rmult_lt_compat_r; lra.
  - apply le_IZR. rewrite <- INR_IZR_INZ. apply Rle_trans with (t / d); [|lra].
    assert (HNd : INR N * d <= t).
    { apply Rle_trans with L; [|exact HLt]. apply Rle_trans with (INR N * (L / INR N)); [apply Rmult_le_compat_l; lra|].
      right. field. lra. }
    apply Rmult_le_reg_r with d; [exact Hd|]. rewrite Et. exact HNd.
Qed.

Lemma isclose_refl : forall a, isclose a a = true.
Proof. intros. unfold isclose. apply Rleb_true. rewrite Rminus_eq_0, Rabs_R0. pose proof (Rabs_pos a). nra. Qed.

Lemma to_nat_even : forall z, (0 <= z)%Z -> Z.Even z -> Nat.Even (Z.to_nat z).
Proof. intros z Hz [h Hh]. exists (Z.to_nat h). lia. Qed.

Lemma make_low_grid_ok : forall cfg, positive_lengths cfg -> exists g, make_low_grid cfg = Ok g /\ grid_facts cfg g.
Proof.
  intros cfg (HL & H1 & H2). unfold make_low_grid, buffer_sizes.
  set (L1 := lc_f1 cfg * lc_L cfg). set (L2 := lc_f2 cfg * lc_L cfg).
  set (dx := L1 / INR (2 ^ lc_e1 cfg)). set (dy := L2 / INR (2 ^ lc_e2 cfg)).
  assert (HL1 : 0 < L1) by (apply Rmult_lt_0_compat; assumption).
  assert (HL2 : 0 < L2) by (apply Rmult_lt_0_compat; assumption).
  assert (Hdx : 0 < dx) by (apply Rdiv_lt_0_compat; [exact HL1|apply pow2_pos]).
  assert (Hdy : 0 < dy) by (apply Rdiv_lt_0_compat; [exact HL2|apply pow2_pos]).
  assert (Hd : 0 < Rmin dx dy) by (apply Rmin_glb_lt; assumption).
  set (d := Rmin dx dy) in *.
  assert (Ht1 : 0 < Rmax L1 (5 * lc_L cfg)) by (apply Rlt_le_trans with L1; [exact HL1|apply Rmax_l]).
  assert (Ht2 : 0 < Rmax L2 (5 * lc_L cfg)) by (apply Rlt_le_trans with L2; [exact HL2|apply Rmax_l]).
  destruct (direction d (Rmax L1 (5 * lc_L cfg)) L1 (2 ^ lc_e1 cfg)) as (A2 & Ae & At & As & Au);
    [exact Hd|apply Rmin_l|apply pow2_pos|apply Rmax_l|exact Ht1|].
  destruct (direction d (Rmax L2 (5 * lc_L cfg)) L2 (2 ^ lc_e2 cfg)) as (B2 & Be & Bt & Bs & Bu);
    [exact Hd|apply Rmin_r|apply pow2_pos|apply Rmax_l|exact Ht2|].
  set (n1 := even_count _) in *. set (n2 := even_count (Zceil (Rmax L2 _ / d))) in *.
  unfold Reqb at 1. destruct (Req_EM_T d 0) as [E|_]; [lra|].
  replace (Rleb (Rmax L1 (5 * lc_L cfg) - / 10 ^ 9) (IZR n1 * d)) with true
    by (symmetry; apply Rleb_true; assert (0 < / 10^9) by (apply Rinv_0_lt_compat; lra); lra).
  replace (Rleb (Rmax L2 (5 * lc_L cfg) - / 10 ^ 9) (IZR n2 * d)) with true
    by (symmetry; apply Rleb_true; assert (0 < / 10^9) by (apply Rinv_0_lt_compat; lra); lra).
  cbn [andb bind]. destruct (Z.eqb_spec n1 0) as [E|_]; [lia|]. destruct (Z.eqb_spec n2 0) as [E|_]; [lia|]. cbn [orb].
  assert (P1 : 0 < IZR n1) by (apply IZR_lt; lia). assert (P2 : 0 < IZR n2) by (apply IZR_lt; lia).
  replace (IZR n1 * d / IZR n1) with d by (field; lra). replace (IZR n2 * d / IZR n2) with d by (field; lra).
  rewrite isclose_refl. eexists. split; [reflexivity|].
  assert (I1 : INR (Z.to_nat n1) = IZR n1) by (rewrite INR_IZR_INZ, Z2Nat.id by lia; reflexivity).
  assert (I2 : INR (Z.to_nat n2) = IZR n2) by (rewrite INR_IZR_INZ, Z2Nat.id by lia; reflexivity).
  assert (Ed : Rmin (asked_dx cfg) (asked_dy cfg) = d) by (unfold asked_dx, asked_dy; rewrite <- !pow2_INR; reflexivity).
  constructor; cbn [lg_L1 lg_L2 lg_N1 lg_N2 lg_dx lg_dy lg_cL1 lg_cL2 lg_cN1 lg_cN2 lg_cdx lg_cdy];
    rewrite ?I1, ?I2, ?Ed; try (apply to_nat_even; [lia|assumption]); try lia; try assumption; try reflexivity;
    try (unfold asked_dx, asked_dy; rewrite <- pow2_INR; reflexivity).
  split; reflexivity.
Qed.

(** With a positive integral scale the constructor succeeds only for positive side
    factors, up to domains shorter than the tolerance. *)
Lemma make_low_grid_positive : forall cfg g, / 10^9 < 5 * lc_L cfg -> make_low_grid cfg = Ok g -> positive_lengths cfg.
Proof.
  intros cfg g HL H. assert (P9 : 0 < / 10^9) by (apply Rinv_0_lt_compat; lra).
  assert (HLp : 0 < lc_L cfg) by lra. unfold make_low_grid, buffer_sizes in H.
  set (L1 := lc_f1 cfg * lc_L cfg) in *. set (L2 := lc_f2 cfg * lc_L cfg) in *.
  set (dx := L1 / INR (2 ^ lc_e1 cfg)) in *. set (dy := L2 / INR (2 ^ lc_e2 cfg)) in *. set (d := Rmin dx dy) in *.
  unfold Reqb at 1 in H. destruct (Req_EM_T d 0) as [E|Hd0]; [discriminate|].
  destruct (Rlt_dec 0 d) as [Hd|Hd].
  - assert (Hdx : 0 < dx) by (apply Rlt_le_trans with d; [exact Hd|apply Rmin_l]).
    assert (Hdy : 0 < dy) by (apply Rlt_le_trans with d; [exact Hd|apply Rmin_r]).
    split; [exact HLp|]. split.
    + apply Rmult_lt_reg_r with (lc_L cfg); [exact HLp|]. rewrite Rmult_0_l. fold L1.
      replace L1 with (dx * INR (2 ^ lc_e1 cfg)) by (unfold dx; field; pose proof (pow2_pos (lc_e1 cfg)); lra).
      apply Rmult_lt_0_compat; [exact Hdx|apply pow2_pos].
    + apply Rmult_lt_reg_r with (lc_L cfg); [exact HLp|]. rewrite Rmult_0_l. fold L2.
      replace L2 with (dy * INR (2 ^ lc_e2 cfg)) by (unfold dy; field; pose proof (pow2_pos (lc_e2 cfg)); lra).
      apply Rmult_lt_0_compat; [exact Hdy|apply pow2_pos].
  - exfalso. set (t := Rmax L1 (5 * lc_L cfg)) in *.
    assert (Ht : 5 * lc_L cfg <= t) by apply Rmax_r.
    assert (Hq : t / d < 0).
    { unfold Rdiv. assert (/ d < 0) by (apply Rinv_lt_0_compat; lra). nra. }
    assert (Hn : even_count (Zceil (t / d)) = 0%Z).
    { unfold even_count. destruct (Z.ltb_spec 0 (Zceil (t / d))) as [Hc|_]; [|reflexivity].
      destruct (Zceil_spec (t / d)) as [_ Hc2]. assert (IZR (Zceil (t / d)) < 1) by lra.
      apply lt_IZR in H0. lia. }
    rewrite Hn in H. replace (Rleb (t - / 10^9) (0 * d)) with false in H by (symmetry; apply Rleb_false; lra).
    cbn [andb bind] in H. discriminate.
Qed.

(** ** Extraction *)

Lemma pyslice_pos : forall A (s n : nat) (l : list A), (s + n <= length l)%nat ->
  pyslice (Z.of_nat s) (Z.of_nat s + Z.of_nat n) l = firstn n (skipn s l).
Proof.
  intros A s n l H. unfold pyslice, slice_pos.
  destruct (Z.ltb_spec (Z.of_nat s) 0); [lia|]. destruct (Z.ltb_spec (Z.of_nat s + Z.of_nat n) 0); [lia|].
  rewrite !Nat.min_l by lia. f_equal; [lia|]. f_equal. lia.
Qed.

Lemma pyslice_length_le : forall A a b (l : list A), (length (pyslice a b l) <= length l)%nat.
Proof. intros. unfold pyslice. rewrite firstn_length, skipn_length. lia. Qed.

Lemma nth_error_firstn : forall A n (l : list A) i, (i < n)%nat -> nth_error (firstn n l) i = nth_error l i.
Proof.
  induction n as [|n IH]; intros l i H; [lia|]. destruct l as [|a l]; [destruct i; reflexivity|].
  destruct i; [reflexivity|]. cbn. apply IH. lia.
Qed.

Lemma nth_error_skipn : forall A n (l : list A) i, nth_error (skipn n l) i = nth_error l (n + i).
Proof. induction n as [|n IH]; intros l i; [reflexivity|]. destruct l; [destruct i; reflexivity|]. cbn. apply IH. Qed.

Lemma forallb_length : forall (e : list (list R)) ny, forallb (fun r => (length r =? ny)%nat) e = true <-> List.Forall (fun r => length r = ny) e.
Proof.
  intros e ny. rewrite forallb_forall, List.Forall_forall. split; intros H r Hr; apply H in Hr; apply Nat.eqb_eq; assumption.
Qed.

Lemma shape2_hd : forall n m (f : list (list R)), shape2 n m f -> (0 < n)%nat -> length (hd [] f) = m.
Proof.
  intros n m f [Hl Hf] Hn. destruct f as [|r f]; [cbn in Hl; lia|]. apply Forall_cons_iff in Hf. exact (proj1 Hf).
Qed.

Lemma extract_window : forall cx cy nx ny f, shape2 cx cy f -> (0 < cx)%nat -> (nx <= cx)%nat -> (ny <= cy)%nat ->
  exists u, extract nx ny f = Ok u /\ shape2 nx ny u /\
    forall i j, (i < nx)%nat -> (j < ny)%nat -> entry u i j = entry f (i + (cx - nx) / 2) (j + (cy - ny) / 2).
Proof.
  intros cx cy nx ny f Hf Hc Hx Hy. pose proof (shape2_hd _ _ _ Hf Hc) as Hh. destruct Hf as [Hl Hr].
  unfold extract. rewrite Hl, Hh.
  destruct ((cx =? nx) && (cy =? ny))%nat%bool eqn:E.
  - apply andb_prop in E. destruct E as [E1 E2]. apply Nat.eqb_eq in E1, E2. subst nx ny.
    exists f. split; [reflexivity|]. split; [split; assumption|]. intros i j _ _.
    rewrite !Nat.sub_diag. cbn [Nat.div]. rewrite !Nat.add_0_r. reflexivity.
  - set (sx := ((cx - nx) / 2)%nat). set (sy := ((cy - ny) / 2)%nat).
    assert (Ex : ((Z.of_nat cx - Z.of_nat nx) / 2 = Z.of_nat sx)%Z)
      by (unfold sx; rewrite Nat2Z.inj_div, Nat2Z.inj_sub by lia; reflexivity).
    assert (Ey : ((Z.of_nat cy - Z.of_nat ny) / 2 = Z.of_nat sy)%Z)
      by (unfold sy; rewrite Nat2Z.inj_div, Nat2Z.inj_sub by lia; reflexivity).
    rewrite Ex, Ey.
    assert (Bx : (sx + nx <= cx)%nat) by (unfold sx; pose proof (Nat.div_le_upper_bound (cx - nx) 2 (cx - nx)); lia).
    assert (By : (sy + ny <= cy)%nat) by (unfold sy; pose proof (Nat.div_le_upper_bound (cy - ny) 2 (cy - ny)); lia).
    rewrite pyslice_pos by lia. set (e := map (pyslice (Z.of_nat sy) (Z.of_nat sy + Z.of_nat ny)) (firstn nx (skipn sx f))).
    assert (Le : length e = nx) by (unfold e; rewrite map_length, firstn_length, skipn_length; lia).
    assert (Fe : List.Forall (fun r => length r = ny) e).
    { unfold e. apply List.Forall_map. apply Forall_firstn. apply Forall_skipn. eapply Forall_impl; [|exact Hr].
      intros r Hlr. cbn beta in *. rewrite pyslice_pos by lia. rewrite firstn_length, skipn_length. lia. }
    rewrite Le, Nat.eqb_refl. rewrite (proj2 (forallb_length e ny) Fe). cbn [andb].
    exists e. split; [reflexivity|]. split; [split; assumption|]. intros i j Hi Hj. unfold entry, e.
    rewrite nth_error_map, nth_error_firstn, nth_error_skipn by exact Hi. rewrite (Nat.add_comm sx i).
    destruct (nth_error f (i + sx)) as [r|] eqn:Er; [|reflexivity]. cbn [option_map].
    assert (Hlr : length r = cy) by (rewrite List.Forall_forall in Hr; apply Hr; eapply nth_error_In; exact Er).
    rewrite pyslice_pos by lia. rewrite nth_error_firstn, nth_error_skipn by exact Hj. rewrite (Nat.add_comm sy j). reflexivity.
Qed.

Lemma extract_small : forall cx cy nx ny f, shape2 cx cy f -> (0 < cx)%nat -> (0 < nx)%nat -> (cx < nx \/ cy < ny)%nat -> extract nx ny f = Err ValueError.
Proof.
  intros cx cy nx ny f Hf Hc Hn Hlt. pose proof (shape2_hd _ _ _ Hf Hc) as Hh. destruct Hf as [Hl Hr].
  unfold extract. rewrite Hl, Hh.
  destruct ((cx =? nx) && (cy =? ny))%nat%bool eqn:E.
  { apply andb_prop in E. destruct E as [E1 E2]. apply Nat.eqb_eq in E1, E2. lia. }
  set (sx := ((Z.of_nat cx - Z.of_nat nx) / 2)%Z). set (sy := ((Z.of_nat cy - Z.of_nat ny) / 2)%Z).
  set (rows := pyslice sx (sx + Z.of_nat nx) f).
  destruct ((length (map (pyslice sy (sy + Z.of_nat ny)) rows) =? nx)%nat) eqn:E1; [|reflexivity].
  apply Nat.eqb_eq in E1. rewrite map_length in E1.
  assert (Hle : (length rows <= cx)%nat) by (unfold rows; rewrite <- Hl; apply pyslice_length_le).
  destruct (forallb _ _) eqn:E2; [|reflexivity]. exfalso.
  apply (proj1 (forallb_length _ ny)) in E2. apply (proj1 (List.Forall_map _ _ _)) in E2.
  destruct Hlt as [Hlt|Hlt]; [lia|].
  destruct rows as [|r rs] eqn:Er; [cbn in E1; lia|].
  apply Forall_cons_iff in E2. destruct E2 as [E2 _].
  assert (Hin : In r f).
  { assert (In r rows) by (rewrite Er; left; reflexivity). unfold rows, pyslice in H.
    assert (In r (skipn (slice_pos (length f) sx) f)) by (rewrite <- (firstn_skipn (slice_pos (length f) (sx + Z.of_nat nx) - slice_pos (length f) sx) (skipn _ f)); apply in_or_app; left; exact H).
    rewrite <- (firstn_skipn (slice_pos (length f) sx) f). apply in_or_app. right. assumption. }
  rewrite List.Forall_forall in Hr. specialize (Hr r Hin). cbn beta in Hr, E2.
  pose proof (pyslice_length_le _ sy (sy + Z.of_nat ny) r). lia.
Qed.

(** ** Interpolation *)

Lemma increasing_tl : forall a xs, increasing (a :: xs) -> increasing xs.
Proof. intros a xs H i j Hij. apply (H (S i) (S j)). cbn [length]. lia. Qed.

Lemma increasing_lt : forall xs, increasing xs -> forall i j, (i < j < length xs)%nat -> nth i xs 0 < nth j xs 0.
Proof. intros xs H. exact H. Qed.

Lemma locate_cell : forall xs i x, increasing xs -> in_cell xs i x ->
  locate xs x = i \/ (locate xs x = S i /\ x = nth (S i) xs 0 /\ (S (S i) < length xs)%nat).
Proof.
  induction xs as [|a xs IH]; intros i x Hi [Hl Hx]; [cbn in Hl; lia|].
  destruct xs as [|b xs]; [cbn in Hl; lia|]. destruct xs as [|c xs].
  - cbn in Hl. assert (i = 0%nat) by lia. subst i. left. reflexivity.
  - destruct i as [|i].
    + cbn [nth] in Hx. change (locate (a :: b :: c :: xs) x) with (if Rleb b x then S (locate (b :: c :: xs) x) else O).
      destruct (Rleb b x) eqn:E; [|left; reflexivity]. apply Rleb_true in E. assert (x = b) by lra. subst x. right.
      assert (Hc : b < c) by (apply (Hi 1%nat 2%nat); cbn; lia).
      destruct (IH 0%nat b (increasing_tl _ _ Hi)) as [E1|(_ & E2 & _)].
      * split; cbn; [lia|lra].
      * rewrite E1. split; [reflexivity|]. split; [reflexivity|cbn; lia].
      * cbn in E2. lra.
    + change (locate (a :: b :: c :: xs) x) with (if Rleb b x then S (locate (b :: c :: xs) x) else O).
      assert (Hb : b <= x).
      { change (nth (S i) (a :: b :: c :: xs) 0) with (nth i (b :: c :: xs) 0) in Hx. destruct i as [|i]; [cbn in Hx; lra|].
        assert (nth 0 (b :: c :: xs) 0 < nth (S i) (b :: c :: xs) 0) by (apply (increasing_tl _ _ Hi); cbn [length] in *; lia).
        cbn [nth] in H. cbn [nth] in Hx. lra. }
      rewrite (proj2 (Rleb_true b x) Hb).
      destruct (IH i x (increasing_tl _ _ Hi)) as [E1|(E1 & E2 & E3)].
      * split; [cbn [length] in *; lia|exact Hx].
      * left. rewrite E1. reflexivity.
      * right. rewrite E1. split; [reflexivity|]. split; [exact E2|cbn [length] in *; lia].
Qed.

Lemma linear_cell : forall xs i x (v : nat -> R), increasing xs -> in_cell xs i x ->
  (1 - frac xs x) * v (locate xs x) + frac xs x * v (S (locate xs x))
  = (1 - between (nth i xs 0) (nth (S i) xs 0) x) * v i + between (nth i xs 0) (nth (S i) xs 0) x * v (S i).
Proof.
  intros xs i x v Hi Hc. pose proof Hc as [Hl Hx]. unfold frac, between.
  assert (Hlt : nth i xs 0 < nth (S i) xs 0) by (apply Hi; lia).
  destruct (locate_cell xs i x Hi Hc) as [E|(E & E2 & E3)]; rewrite E.
  - rewrite (nth_error_nth' xs 0 Hl). reflexivity.
  - rewrite (nth_error_nth' xs 0 E3). assert (Hlt2 : nth (S i) xs 0 < nth (S (S i)) xs 0) by (apply Hi; lia).
    rewrite <- E2 in *. set (a := nth i xs 0) in *. set (c := nth (S (S i)) xs 0) in *.
    replace ((x - x) / (c - x)) with 0 by (field; lra). replace ((x - a) / (x - a)) with 1 by (field; lra). ring.
Qed.

Lemma in_cell_bounds : forall xs i x, increasing xs -> in_cell xs i x -> in_bounds xs x = true.
Proof.
  intros xs i x Hi [Hl Hx]. unfold in_bounds. apply andb_true_intro. rewrite !Rleb_true. split.
  - destruct i as [|i]; [lra|]. assert (nth 0 xs 0 < nth (S i) xs 0) by (apply Hi; lia). lra.
  - assert (El : last xs 0 = nth (length xs - 1) xs 0).
    { clear. induction xs as [|a xs IH]; [reflexivity|]. destruct xs as [|b xs]; [reflexivity|].
      change (last (a :: b :: xs) 0) with (last (b :: xs) 0). rewrite IH. cbn [length]. cbn. rewrite Nat.sub_0_r. reflexivity. }
    rewrite El. destruct (Nat.eq_dec (S i) (length xs - 1)) as [<-|Hn]; [lra|].
    assert (nth (S i) xs 0 < nth (length xs - 1) xs 0) by (apply Hi; lia). lra.
Qed.

Lemma last_nth : forall xs : list R, last xs 0 = nth (length xs - 1) xs 0.
Proof.
  induction xs as [|a xs IH]; [reflexivity|]. destruct xs as [|b xs]; [reflexivity|].
  change (last (a :: b :: xs) 0) with (last (b :: xs) 0). rewrite IH. cbn [length]. cbn. rewrite Nat.sub_0_r. reflexivity.
Qed.

Lemma interpolate_cell : forall xs ys V x y i j, increasing xs -> increasing ys -> in_cell xs i x -> in_cell ys j y ->
  let t := between (nth i xs 0) (nth (S i) xs 0) x in
  let s := between (nth j ys 0) (nth (S j) ys 0) y in
  interpolate xs ys V x y = (1 - t) * ((1 - s) * value V i j + s * value V i (S j)) + t * ((1 - s) * value V (S i) j + s * value V (S i) (S j)).
Proof.
  intros xs ys V x y i j Hxs Hys Hcx Hcy t s. unfold interpolate.
  rewrite (in_cell_bounds xs i x Hxs Hcx), (in_cell_bounds ys j y Hys Hcy). cbn [andb].
  pose proof (linear_cell xs i x (fun p => (1 - frac ys y) * value V p (locate ys y) + frac ys y * value V p (S (locate ys y))) Hxs Hcx) as H1.
  cbn beta in H1.
  pose proof (linear_cell ys j y (fun q => value V i q) Hys Hcy) as H2.
  pose proof (linear_cell ys j y (fun q => value V (S i) q) Hys Hcy) as H3. cbn beta in H2, H3.
  fold t in H1. fold s in H2, H3. rewrite H2, H3 in H1. unfold value in *. rewrite <- H1. ring.
Qed.

Lemma interpolate_outside : forall xs ys V x y, outside xs x \/ outside ys y -> interpolate xs ys V x y = 0.
Proof.
  intros xs ys V x y H. unfold interpolate.
  assert (Ho : forall zs z, outside zs z -> in_bounds zs z = false).
  { intros zs z [Hz|Hz]; unfold in_bounds; rewrite last_nth.
    - replace (Rleb (nth 0 zs 0) z) with false by (symmetry; apply Rleb_false; exact Hz). reflexivity.
    - replace (Rleb z (nth (length zs - 1) zs 0)) with false by (symmetry; apply Rleb_false; exact Hz). apply andb_false_r. }
  destruct H as [H|H]; rewrite (Ho _ _ H); [reflexivity|]. rewrite andb_false_r. reflexivity.
Qed.

Lemma between_01 : forall xs i x, increasing xs -> in_cell xs i x -> 0 <= between (nth i xs 0) (nth (S i) xs 0) x <= 1.
Proof.
  intros xs i x Hi [Hl Hx]. assert (Hlt : nth i xs 0 < nth (S i) xs 0) by (apply Hi; lia). unfold between. split.
  - apply Rmult_le_pos; [lra|]. left. apply Rinv_0_lt_compat. lra.
  - apply Rmult_le_reg_r with (nth (S i) xs 0 - nth i xs 0); [lra|]. unfold Rdiv. rewrite Rmult_assoc, Rinv_l by lra. lra.
Qed.

Lemma interpolate_range : forall xs ys V x y i j lo hi, increasing xs -> increasing ys -> in_cell xs i x -> in_cell ys j y ->
  (forall p q, (p = i \/ p = S i) -> (q = j \/ q = S j) -> lo <= value V p q <= hi) -> lo <= interpolate xs ys V x y <= hi.
Proof.
  intros xs ys V x y i j lo hi Hxs Hys Hcx Hcy HV. rewrite (interpolate_cell xs ys V x y i j) by assumption. cbv zeta.
  pose proof (between_01 xs i x Hxs Hcx) as Ht. pose proof (between_01 ys j y Hys Hcy) as Hs.
  set (t := between _ _ x) in *. set (s := between _ _ y) in *.
  pose proof (HV i j (or_introl eq_refl) (or_introl eq_refl)) as A. pose proof (HV i (S j) (or_introl eq_refl) (or_intror eq_refl)) as B.
  pose proof (HV (S i) j (or_intror eq_refl) (or_introl eq_refl)) as C. pose proof (HV (S i) (S j) (or_intror eq_refl) (or_intror eq_refl)) as D.
  assert (P : lo <= (1 - s) * value V i j + s * value V i (S j) <= hi) by (split; nra).
  assert (Q : lo <= (1 - s) * value V (S i) j + s * value V (S i) (S j) <= hi) by (split; nra).
  split; nra.
Qed.

Lemma interpolate_bilinear : forall xs ys V a b c e x y i j, increasing xs -> increasing ys -> in_cell xs i x -> in_cell ys j y ->
  (forall p q, (p < length xs)%nat -> (q < length ys)%nat -> value V p q = a + b * nth p xs 0 + c * nth q ys 0 + e * nth p xs 0 * nth q ys 0) ->
  interpolate xs ys V x y = a + b * x + c * y + e * x * y.
Proof.
  intros xs ys V a b c e x y i j Hxs Hys Hcx Hcy HV. rewrite (interpolate_cell xs ys V x y i j) by assumption. cbv zeta.
  destruct Hcx as [Lx Hx]. destruct Hcy as [Ly Hy]. rewrite !HV by lia. unfold between.
  assert (nth i xs 0 < nth (S i) xs 0) by (apply Hxs; lia). assert (nth j ys 0 < nth (S j) ys 0) by (apply Hys; lia).
  field. lra.
Qed.

Lemma increasing_between : forall xs x, increasing xs -> (2 <= length xs)%nat -> ~ outside xs x -> exists i, in_cell xs i x.
Proof.
  intros xs x Hi Hl Ho. assert (H0 : nth 0 xs 0 <= x <= nth (length xs - 1) xs 0) by (unfold outside in Ho; split; apply Rnot_lt_le; tauto).
  assert (Hgen : forall n, (n < length xs)%nat -> (1 <= n)%nat -> x <= nth n xs 0 -> exists i, in_cell xs i x).
  { induction n as [|n IH]; intros Hn H1 Hx; [lia|]. destruct (Rle_dec (nth n xs 0) x) as [Hle|Hgt].
    - exists n. split; [lia|lra].
    - destruct n as [|n]; [lra|]. apply IH; [lia|lia|lra]. }
  apply (Hgen (length xs - 1)%nat); [lia|lia|apply H0].
Qed.

Lemma interpolate_node : forall xs ys V p q, increasing xs -> increasing ys -> (p < length xs)%nat -> (q < length ys)%nat ->
  interpolate xs ys V (nth p xs 0) (nth q ys 0) = value V p q.
Proof.
  intros xs ys V p q Hxs Hys Hp Hq.
  assert (Hl : forall zs r, increasing zs -> (r < length zs)%nat -> in_bounds zs (nth r zs 0) = true).
  { intros zs r Hz Hr. unfold in_bounds. rewrite last_nth. apply andb_true_intro. rewrite !Rleb_true. split.
    - destruct r; [lra|]. left. apply Hz. lia.
    - destruct (Nat.eq_dec r (length zs - 1)) as [->|Hn]; [lra|]. left. apply Hz. lia. }
  assert (Hv : forall zs r (v : nat -> R), increasing zs -> (r < length zs)%nat ->
    (1 - frac zs (nth r zs 0)) * v (locate zs (nth r zs 0)) + frac zs (nth r zs 0) * v (S (locate zs (nth r zs 0))) = v r).
  { intros zs r v Hz Hr. destruct (Nat.eq_dec (length zs) 1) as [E1|E1].
    - destruct zs as [|a [|b zs]]; cbn in E1, Hr; try lia. assert (r = 0%nat) by lia. subst r. unfold frac. cbn. ring.
    - destruct r as [|r].
      + assert (Hc : in_cell zs 0 (nth 0 zs 0)) by (split; [lia|]; assert (nth 0 zs 0 < nth 1 zs 0) by (apply Hz; lia); lra).
        rewrite (linear_cell zs 0 _ v Hz Hc). unfold between. assert (nth 0 zs 0 < nth 1 zs 0) by (apply Hz; lia). field. lra.
      + assert (Hlt : nth r zs 0 < nth (S r) zs 0) by (apply Hz; lia).
        assert (Hc : in_cell zs r (nth (S r) zs 0)) by (split; [lia|]; lra).
        rewrite (linear_cell zs r _ v Hz Hc). unfold between. field. lra. }
  unfold interpolate. rewrite (Hl xs p Hxs Hp), (Hl ys q Hys Hq). cbn [andb].
  pose proof (Hv xs p (fun i => (1 - frac ys (nth q ys 0)) * value V i (locate ys (nth q ys 0)) + frac ys (nth q ys 0) * value V i (S (locate ys (nth q ys 0)))) Hxs Hp) as H1.
  cbn beta in H1. rewrite (Hv ys q (fun j => value V p j) Hys Hq) in H1. rewrite <- H1. unfold value. ring.
Qed.

Lemma user_coords_length : forall L N, length (user_coords L N) = N.
Proof. intros. unfold user_coords. rewrite map_length, seq_length. reflexivity. Qed.

Lemma user_coords_nth : forall L N i, (i < N)%nat -> nth i (user_coords L N) 0 = INR i * (L / INR N).
Proof.
  intros L N i Hi. unfold user_coords. rewrite nth_indep with (d' := INR 0 * (L / INR N)) by (rewrite map_length, seq_length; exact Hi).
  rewrite (map_nth (fun i => INR i * (L / INR N))), seq_nth by exact Hi. reflexivity.
Qed.

Lemma user_coords_increasing : forall L N, 0 < L -> increasing (user_coords L N).
Proof.
  intros L N HL i j Hij. rewrite user_coords_length in Hij. rewrite !user_coords_nth by lia.
  apply Rmult_lt_compat_r; [|apply lt_INR; lia]. apply Rdiv_lt_0_compat; [exact HL|]. apply lt_0_INR. lia.
Qed.
