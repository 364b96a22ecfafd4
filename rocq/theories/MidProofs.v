(** Sums over the wave numbers of a periodic box as midpoint rules. *)

From Coq Require Import Reals List Arith Lra Lia.
From Coquelicot Require Import Coquelicot.
From Verif Require Import Prelude QuadSpec QuadProofs QuadTensor BoxProofs DftSpec MidSpec.
Import ListNotations.
Open Scope R_scope.

Lemma Rsum_app' : forall l l', Rsum (l ++ l') = Rsum l + Rsum l'.
Proof. induction l as [|a l IH]; intros l'; simpl; [ring | rewrite IH; ring]. Qed.

(** ** One variable *)

Lemma cell_err : forall f u w c eps, 0 <= w -> u <= c <= u + w -> (forall t, continuous f t) ->
  (forall t, u <= t <= u + w -> Rabs (f c - f t) <= eps) ->
  Rabs (w * f c - RInt f u (u + w)) <= eps * w.
Proof.
  intros f u w c eps Hw Hc Hf Hb.
  assert (Hex : ex_RInt f u (u + w)) by (apply (@ex_RInt_continuous R_CompleteNormedModule); intros z _; apply Hf).
  assert (Hk : ex_RInt (fun _ : R => f c) u (u + w)) by apply ex_RInt_const.
  assert (E : w * f c - RInt f u (u + w) = RInt (fun t => f c - f t) u (u + w)).
  { transitivity (RInt (fun t => minus (f c) (f t)) u (u + w)); [|reflexivity].
    rewrite (RInt_minus (V := R_CompleteNormedModule)) by assumption.
    rewrite RInt_const. unfold minus, plus, opp, scal; simpl; unfold mult; simpl. ring. }
  rewrite E. replace (eps * w) with ((u + w - u) * eps) by ring.
  apply abs_RInt_le_const; [lra | | exact Hb].
  apply (ex_RInt_minus (V := R_CompleteNormedModule) (fun _ => f c) f); assumption.
Qed.

Lemma mid_err : forall f a w eps n, 0 <= w -> (forall t, continuous f t) ->
  (forall u v, a <= u <= a + INR n * w -> a <= v <= a + INR n * w -> Rabs (u - v) <= w -> Rabs (f u - f v) <= eps) ->
  Rabs (w * Rsum (map (fun j => f (a + w * (INR j + 1/2))) (seq 0 n)) - RInt f a (a + INR n * w)) <= eps * (INR n * w).
Proof.
  intros f a w eps n Hw Hf. induction n as [|n IH]; intros Hb.
  - simpl. rewrite Rmult_0_l, Rplus_0_r, RInt_point. unfold zero; simpl.
    rewrite !Rmult_0_r, Rminus_0_r, Rabs_R0. lra.
  - assert (Hex : forall c d, ex_RInt f c d) by (intros; apply (@ex_RInt_continuous R_CompleteNormedModule); intros z _; apply Hf).
    rewrite S_INR in *.
    assert (HS : seq 0 (S n) = seq 0 n ++ [n]) by (rewrite seq_S; reflexivity).
    rewrite HS, map_app, Rsum_app'. cbn [map Rsum fold_right].
    assert (Hn : 0 <= INR n) by apply pos_INR.
    assert (Hnw : 0 <= INR n * w) by (apply Rmult_le_pos; assumption).
    rewrite <- (RInt_Chasles f a (a + INR n * w) (a + (INR n + 1) * w)) by apply Hex.
    replace (a + (INR n + 1) * w) with (a + INR n * w + w) by ring.
    assert (H1 : Rabs (w * Rsum (map (fun j => f (a + w * (INR j + 1/2))) (seq 0 n)) - RInt f a (a + INR n * w)) <= eps * (INR n * w)).
    { apply IH. intros u v Hu Hv Huv. apply Hb; [lra | lra | exact Huv]. }
    assert (H2 : Rabs (w * f (a + w * (INR n + 1/2)) - RInt f (a + INR n * w) (a + INR n * w + w)) <= eps * w).
    { apply cell_err; [exact Hw | split; lra | exact Hf |].
      intros t Ht. apply Hb; [lra | lra |]. apply Rabs_le. lra. }
    match goal with |- context [plus ?p ?q] => change (plus p q) with (p + q) end.
    replace (w * (Rsum (map (fun j => f (a + w * (INR j + 1/2))) (seq 0 n)) + (f (a + w * (INR n + 1/2)) + 0))
             - (RInt f a (a + INR n * w) + RInt f (a + INR n * w) (a + INR n * w + w)))
      with ((w * Rsum (map (fun j => f (a + w * (INR j + 1/2))) (seq 0 n)) - RInt f a (a + INR n * w))
            + (w * f (a + w * (INR n + 1/2)) - RInt f (a + INR n * w) (a + INR n * w + w))) by ring.
    eapply Rle_trans; [apply Rabs_triang|].
    replace (eps * ((INR n + 1) * w)) with (eps * (INR n * w) + eps * w) by ring.
    apply Rplus_le_compat; assumption.
Qed.

(** The wave numbers of a periodic side with an odd number of points are the
    midpoints of equal cells. *)
Lemma modes_are_midpoints : forall f h n, 0 < h -> Nat.Odd n ->
  Rsum (map (fun b => f (physical_k (h * INR n) n b)) (seq 0 n))
  = Rsum (map (fun j => f (- (PI / h) + 2 * PI / (h * INR n) * (INR j + 1/2))) (seq 0 n)).
Proof.
  intros f h n Hh [m Hm]. subst n.
  assert (Hn : 0 < INR (2 * m + 1)) by (apply lt_0_INR; lia).
  set (N := INR (2 * m + 1)) in *.
  assert (HN : N = 2 * INR m + 1) by (unfold N; rewrite plus_INR, mult_INR; simpl; ring).
  assert (E1 : seq 0 (2 * m + 1) = seq 0 (m + 1) ++ seq (m + 1) m)
    by (replace (2 * m + 1)%nat with ((m + 1) + m)%nat by lia; exact (seq_app (m + 1) m 0)).
  assert (E2 : seq 0 (2 * m + 1) = seq 0 m ++ seq m (m + 1))
    by (replace (2 * m + 1)%nat with (m + (m + 1))%nat by lia; exact (seq_app m (m + 1) 0)).
  transitivity (Rsum (map (fun b => f (physical_k (h * N) (2 * m + 1) b)) (seq 0 (m + 1) ++ seq (m + 1) m)));
    [rewrite E1; reflexivity|].
  rewrite E2.
  rewrite !map_app, !Rsum_app'.
  replace (seq (m + 1) m) with (map (fun c => (c + (m + 1))%nat) (seq 0 m)).
  2: { clear. generalize (m + 1)%nat as s. intros s. induction m as [|m IH]; [reflexivity|].
       rewrite !seq_S, map_app, IH. simpl. f_equal. f_equal. lia. }
  replace (seq m (m + 1)) with (map (fun c => (c + m)%nat) (seq 0 (m + 1))).
  2: { clear. generalize (m + 1)%nat as k. intros k. induction k as [|k IH]; [reflexivity|].
       rewrite !seq_S, map_app, IH. simpl. f_equal. f_equal. lia. }
  rewrite !map_map. rewrite Rplus_comm. f_equal; f_equal; apply map_ext_in; intros c Hc; apply in_seq in Hc; f_equal.
  - unfold physical_k. destruct (Nat.ltb_spec (2 * (c + (m + 1))) (2 * m + 1)) as [H|H]; [lia|].
    fold N. rewrite !plus_INR. simpl (INR 1). rewrite HN. pose proof (pos_INR m). field. split; lra.
  - unfold physical_k. destruct (Nat.ltb_spec (2 * c) (2 * m + 1)) as [H|H]; [|lia].
    rewrite plus_INR. rewrite HN. pose proof (pos_INR m). field. split; lra.
Qed.

(** ** Two variables *)

Lemma rect_err : forall f By Bz ny nz eps, 0 < By -> 0 < Bz -> (0 < ny)%nat -> (0 < nz)%nat -> plane_continuous f ->
  let wy := 2 * By / INR ny in let wz := 2 * Bz / INR nz in
  (forall x y x' y', - By <= x <= By -> - Bz <= y <= Bz -> - By <= x' <= By -> - Bz <= y' <= Bz ->
     Rabs (x - x') <= wy -> Rabs (y - y') <= wz -> Rabs (f x y - f x' y') <= eps) ->
  Rabs (wy * wz * Rsum (map (fun b => Rsum (map (fun c =>
          f (- By + wy * (INR b + 1/2)) (- Bz + wz * (INR c + 1/2))) (seq 0 nz))) (seq 0 ny))
        - rect_integral f By Bz) <= 2 * eps * (2 * By) * (2 * Bz).
Proof.
  intros f By Bz ny nz eps HBy HBz Hny Hnz Hf wy wz Hm.
  assert (Hy : 0 < INR ny) by (apply lt_0_INR; exact Hny). assert (Hz : 0 < INR nz) by (apply lt_0_INR; exact Hnz).
  assert (Hwy : 0 < wy) by (unfold wy; apply Rdiv_lt_0_compat; lra).
  assert (Hwz : 0 < wz) by (unfold wz; apply Rdiv_lt_0_compat; lra).
  assert (Ey : INR ny * wy = 2 * By) by (unfold wy; field; lra).
  assert (Ez : INR nz * wz = 2 * Bz) by (unfold wz; field; lra).
  set (g := fun x => RInt (fun y => f x y) (- Bz) Bz).
  set (S := fun x => wz * Rsum (map (fun c => f x (- Bz + wz * (INR c + 1/2))) (seq 0 nz))).
  assert (Hinner : forall x, - By <= x <= By -> Rabs (S x - g x) <= eps * (2 * Bz)).
  { intros x Hx. unfold S, g.
    assert (H := mid_err (fun y => f x y) (- Bz) wz eps nz ltac:(lra)).
    rewrite Ez in H. replace (- Bz + 2 * Bz) with Bz in H by ring. apply H.
    - intros t. apply slice_cont. exact Hf.
    - intros u v Hu Hv Huv. apply Hm; try lra. rewrite Rminus_eq_0, Rabs_R0; lra. }
  assert (Hg : forall x x', - By <= x <= By -> - By <= x' <= By -> Rabs (x - x') <= wy -> Rabs (g x - g x') <= eps * (2 * Bz)).
  { intros x x' Hx Hx' Hxx. unfold g.
    replace (RInt (fun y => f x y) (- Bz) Bz - RInt (fun y => f x' y) (- Bz) Bz)
      with (RInt (fun y => minus (f x y) (f x' y)) (- Bz) Bz).
    - replace (eps * (2 * Bz)) with ((Bz - - Bz) * eps) by ring.
      apply abs_RInt_le_const; [lra | |].
      + apply (ex_RInt_minus (V := R_CompleteNormedModule)); apply slice_ex_any; exact Hf.
      + intros t Ht. apply Hm; try lra. rewrite Rminus_eq_0, Rabs_R0; lra.
    - rewrite (RInt_minus (V := R_CompleteNormedModule)) by (apply slice_ex_any; exact Hf). reflexivity. }
  assert (Houter : Rabs (wy * Rsum (map (fun b => g (- By + wy * (INR b + 1/2))) (seq 0 ny)) - rect_integral f By Bz)
                   <= eps * (2 * Bz) * (2 * By)).
  { assert (H := mid_err g (- By) wy (eps * (2 * Bz)) ny ltac:(lra)). rewrite Ey in H.
    replace (- By + 2 * By) with By in H by ring. apply H.
    - intros t. unfold g. apply inner_continuous_any. exact Hf.
    - exact Hg. }
  assert (Hsum : Rabs (wy * Rsum (map (fun b => S (- By + wy * (INR b + 1/2))) (seq 0 ny))
                       - wy * Rsum (map (fun b => g (- By + wy * (INR b + 1/2))) (seq 0 ny))) <= eps * (2 * Bz) * (2 * By)).
  { assert (H : forall k, (k <= ny)%nat -> Rabs (Rsum (map (fun b => S (- By + wy * (INR b + 1/2))) (seq 0 k))
                       - Rsum (map (fun b => g (- By + wy * (INR b + 1/2))) (seq 0 k))) <= INR k * (eps * (2 * Bz))).
    { induction k as [|k IH]; intros Hk.
      - simpl. rewrite Rminus_0_r, Rabs_R0. lra.
      - rewrite seq_S, !map_app, !Rsum_app', S_INR. cbn [map Rsum fold_right plus]. simpl (0 + k)%nat.
        set (u := Rsum (map (fun b => S (- By + wy * (INR b + 1/2))) (seq 0 k))) in *.
        set (v := Rsum (map (fun b => g (- By + wy * (INR b + 1/2))) (seq 0 k))) in *.
        set (x := - By + wy * (INR k + 1/2)).
        assert (Hx : - By <= x <= By).
        { unfold x. assert (HkN : INR k + 1 <= INR ny) by (rewrite <- S_INR; apply le_INR; lia).
          pose proof (pos_INR k) as Hk0. split; [nra|].
          assert (wy * (INR k + 1/2) <= INR ny * wy) by nra. lra. }
        replace (u + (S x + 0) - (v + (g x + 0))) with ((u - v) + (S x - g x)) by ring.
        eapply Rle_trans; [apply Rabs_triang|].
        assert (H1 := IH ltac:(lia)). assert (H2 := Hinner x Hx). lra. }
    rewrite <- Rmult_minus_distr_l, Rabs_mult, (Rabs_pos_eq wy) by lra.
    eapply Rle_trans; [apply Rmult_le_compat_l; [lra | apply (H ny); lia]|].
    right. rewrite <- Ey. ring. }
  replace (wy * wz * Rsum (map (fun b => Rsum (map (fun c =>
          f (- By + wy * (INR b + 1/2)) (- Bz + wz * (INR c + 1/2))) (seq 0 nz))) (seq 0 ny)))
    with (wy * Rsum (map (fun b => S (- By + wy * (INR b + 1/2))) (seq 0 ny))).
  - set (u := wy * Rsum (map (fun b => S (- By + wy * (INR b + 1/2))) (seq 0 ny))) in *.
    set (v := wy * Rsum (map (fun b => g (- By + wy * (INR b + 1/2))) (seq 0 ny))) in *.
    replace (u - rect_integral f By Bz) with ((u - v) + (v - rect_integral f By Bz)) by ring.
    eapply Rle_trans; [apply Rabs_triang|]. lra.
  - rewrite Rmult_assoc. f_equal. unfold S.
    assert (HS : forall (G : nat -> R) l, Rsum (map (fun b => wz * G b) l) = wz * Rsum (map G l)).
    { intros G l. induction l as [|b l IH]; simpl; [ring | rewrite IH; ring]. }
    apply HS.
Qed.

(** Sums over the transverse wave numbers of an odd grid approach the integral as the
    numbers of points grow at fixed spacings. *)
Lemma modes_converge : forall f hy hz, 0 < hy -> 0 < hz -> plane_continuous f ->
  forall eps, 0 < eps -> exists n0, forall ny nz, Nat.Odd ny -> Nat.Odd nz -> (n0 <= ny)%nat -> (n0 <= nz)%nat ->
  Rabs ((2 * PI / (hy * INR ny)) * (2 * PI / (hz * INR nz))
        * Rsum (map (fun b => Rsum (map (fun c =>
            f (physical_k (hy * INR ny) ny b) (physical_k (hz * INR nz) nz c)) (seq 0 nz))) (seq 0 ny))
        - rect_integral f (PI / hy) (PI / hz)) <= eps.
Proof.
  intros f hy hz Hhy Hhz Hf eps Heps. pose proof PI_RGT_0 as Hpi.
  set (By := PI / hy). set (Bz := PI / hz).
  assert (HBy : 0 < By) by (apply Rdiv_lt_0_compat; lra). assert (HBz : 0 < Bz) by (apply Rdiv_lt_0_compat; lra).
  assert (He' : 0 < eps / (2 * (2 * By) * (2 * Bz))).
  { apply Rdiv_lt_0_compat; [exact Heps|]. assert (0 < By * Bz) by (apply Rmult_lt_0_compat; assumption). nra. }
  destruct (uniform_continuity_2d f (- By) By (- Bz) Bz (fun u v _ _ => Hf u v) (mkposreal _ He')) as [d Hd].
  cbn in Hd. pose proof (cond_pos d) as Hd0.
  destruct (large_INR (2 * (2 * By + 2 * Bz) / d)) as [N0 [HN0 HN]].
  exists (N0 + 1)%nat. intros ny nz Oy Oz Hny Hnz.
  assert (Hy : 0 < INR ny) by (apply lt_0_INR; lia). assert (Hz : 0 < INR nz) by (apply lt_0_INR; lia).
  assert (Wd : forall B n, 0 < B -> B <= By + Bz -> (N0 + 1 <= n)%nat -> 0 < INR n -> 2 * B / INR n < d).
  { intros B n HB HBB Hn Hn0. specialize (HN n ltac:(lia)).
    assert (INR (n - 1) <= INR n) by (apply le_INR; lia).
    assert (H1 : 2 * (2 * By + 2 * Bz) / d <= INR n) by lra.
    apply Rmult_lt_reg_r with (INR n); [exact Hn0|].
    replace (2 * B / INR n * INR n) with (2 * B) by (field; lra).
    assert (H2 : 2 * (2 * By + 2 * Bz) <= d * INR n).
    { replace (2 * (2 * By + 2 * Bz)) with (d * (2 * (2 * By + 2 * Bz) / d)) by (field; lra).
      apply Rmult_le_compat_l; lra. }
    lra. }
  assert (HWy := Wd By ny HBy ltac:(lra) Hny Hy). assert (HWz := Wd Bz nz HBz ltac:(lra) Hnz Hz).
  assert (HR := rect_err f By Bz ny nz (eps / (2 * (2 * By) * (2 * Bz))) HBy HBz ltac:(lia) ltac:(lia) Hf). cbv zeta in HR.
  assert (EW : forall h n, 0 < h -> 0 < INR n -> 2 * PI / (h * INR n) = 2 * (PI / h) / INR n) by (intros; field; lra).
  rewrite (EW hy ny Hhy Hy), (EW hz nz Hhz Hz). fold By Bz.
  replace (Rsum (map (fun b => Rsum (map (fun c =>
            f (physical_k (hy * INR ny) ny b) (physical_k (hz * INR nz) nz c)) (seq 0 nz))) (seq 0 ny)))
    with (Rsum (map (fun b => Rsum (map (fun c =>
          f (- By + 2 * By / INR ny * (INR b + 1/2)) (- Bz + 2 * Bz / INR nz * (INR c + 1/2))) (seq 0 nz))) (seq 0 ny))).
  - eapply Rle_trans; [apply HR|].
    + intros x y x' y' Hx Hy' Hx' Hy'' Hxx Hyy. rewrite Rabs_minus_sym. left.
      apply (Hd x y x' y'); try assumption; rewrite Rabs_minus_sym; lra.
    + right. assert (0 < By * Bz) by (apply Rmult_lt_0_compat; assumption). field. lra.
  - symmetry.
    rewrite (modes_are_midpoints (fun x => Rsum (map (fun c => f x (physical_k (hz * INR nz) nz c)) (seq 0 nz))) hy ny Hhy Oy).
    f_equal. apply map_ext. intros b. rewrite (EW hy ny Hhy Hy). fold By.
    rewrite (modes_are_midpoints (fun y => f (- By + 2 * By / INR ny * (INR b + 1/2)) y) hz nz Hhz Oz).
    rewrite (EW hz nz Hhz Hz). fold Bz. reflexivity.
Qed.
