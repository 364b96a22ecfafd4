(** Lemmas about the figure of the low-frequency fields. *)

From Coq Require Import Reals List ZArith Lia Lra.
From Coquelicot Require Import Coquelicot.
From Verif Require Import Prelude GenModel DftModel LowModel LowSpec LowProofs LowMore LowApi LowDemo LfPlotModel LfPlotSpec.
Import ListNotations.
Open Scope R_scope.

Lemma fold_min : forall l a, (forall v, In v (a :: l) -> fold_right Rmin a l <= v) /\ In (fold_right Rmin a l) (a :: l).
Proof.
  intros l a. induction l as [|b l (IH & IHI)]; cbn [fold_right].
  - split; [intros v [<-|[]]; lra|left; reflexivity].
  - split.
    + intros v [<-|[<-|H]].
      * eapply Rle_trans; [apply Rmin_r|]. apply IH. left. reflexivity.
      * apply Rmin_l.
      * eapply Rle_trans; [apply Rmin_r|]. apply IH. right. exact H.
    + unfold Rmin at 1. destruct (Rle_dec b (fold_right Rmin a l)); [right; left; reflexivity|]. destruct IHI as [E|E]; [left; exact E|right; right; exact E].
Qed.

Lemma fold_max : forall l a, (forall v, In v (a :: l) -> v <= fold_right Rmax a l) /\ In (fold_right Rmax a l) (a :: l).
Proof.
  intros l a. induction l as [|b l (IH & IHI)]; cbn [fold_right].
  - split; [intros v [<-|[]]; lra|left; reflexivity].
  - split.
    + intros v [<-|[<-|H]].
      * eapply Rle_trans; [|apply Rmax_r]. apply IH. left. reflexivity.
      * apply Rmax_l.
      * eapply Rle_trans; [|apply Rmax_r]. apply IH. right. exact H.
    + unfold Rmax at 1. destruct (Rle_dec b (fold_right Rmax a l)); [|right; left; reflexivity]. destruct IHI as [E|E]; [left; exact E|right; right; exact E].
Qed.

Lemma entry_concat : forall (u : list (list R)) p q v, entry u p q = Some v -> In v (concat u).
Proof.
  intros u p q v H. unfold entry in H. destruct (nth_error u p) as [r|] eqn:E; [|discriminate]. apply in_concat. exists r. split.
  - eapply nth_error_In. exact E.
  - eapply nth_error_In. exact H.
Qed.

Lemma concat_entry : forall (u : list (list R)) v, In v (concat u) -> exists p q, entry u p q = Some v.
Proof.
  intros u v H. apply in_concat in H. destruct H as (r & Hr & Hv). apply In_nth_error in Hr, Hv. destruct Hr as (p & Hp), Hv as (q & Hq).
  exists p, q. unfold entry. rewrite Hp. exact Hq.
Qed.

Lemma array_bounds : forall u, concat u <> [] ->
  (forall v, In v (concat u) -> array_min u <= v <= array_max u) /\ In (array_min u) (concat u) /\ In (array_max u) (concat u).
Proof.
  intros u Hn. unfold array_min, array_max. destruct (concat u) as [|a l]; [contradiction|].
  destruct (fold_min l a) as (A & AI). destruct (fold_max l a) as (B & BI). split; [intros v Hv; split; [apply A|apply B]; exact Hv|]. split; assumption.
Qed.

Lemma transposed_entry : forall n m u p q, shape2 n m u -> (p < n)%nat -> (q < m)%nat ->
  exists row v, length (transposed u) = m /\ nth_error (transposed u) q = Some row /\ length row = n /\ nth_error row p = Some v /\ entry u p q = Some v.
Proof.
  intros n m u p q (Hl & Hf) Hp Hq.
  assert (Hh : length (hd [] u) = m).
  { destruct u as [|r u]; [cbn in Hl; lia|]. cbn [hd]. inversion Hf. assumption. }
  unfold transposed. rewrite Hh. exists (map (fun r => nth q r 0) u).
  destruct (nth_error u p) as [r|] eqn:Er; [|apply nth_error_None in Er; lia].
  assert (Hr : length r = m) by (rewrite List.Forall_forall in Hf; apply Hf; eapply nth_error_In; exact Er).
  exists (nth q r 0). split; [rewrite map_length, seq_length; reflexivity|]. split; [|split; [rewrite map_length; exact Hl|split]].
  - rewrite nth_error_map. rewrite (nth_error_nth' _ 0%nat) by (rewrite seq_length; exact Hq). rewrite seq_nth by exact Hq. reflexivity.
  - rewrite nth_error_map, Er. reflexivity.
  - unfold entry. rewrite Er. apply nth_error_nth'. lia.
Qed.

Lemma coords_ends : forall L N, (0 < N)%nat -> hd 0 (map (fun x => x / 1000) (user_coords L N)) = 0 /\ last (map (fun x => x / 1000) (user_coords L N)) 0 = INR (N - 1) * (L / INR N) / 1000.
Proof.
  intros L N HN. unfold user_coords. destruct N as [|n]; [lia|]. split.
  - cbn [seq map hd INR]. unfold Rdiv. ring.
  - rewrite map_map, seq_S, map_app. cbn [map]. rewrite last_last. cbn [Nat.add]. rewrite Nat.sub_succ, Nat.sub_0_r. reflexivity.
Qed.

(** Pixels are centred at the nodes and one spacing wide. *)
Lemma pixel : forall u (N1 N2 : nat) L1 L2 d1 d2 lo hi i j x y, shape2 N1 N2 u -> (i < N1)%nat -> (j < N2)%nat -> 0 < d1 -> 0 < d2 -> d1 = L1 / INR N1 -> d2 = L2 / INR N2 ->
  Rabs (1000 * x - INR i * d1) < d1 / 2 -> Rabs (1000 * y - INR j * d2) < d2 / 2 ->
  let xk := map (fun x => x / 1000) (user_coords L1 N1) in let yk := map (fun x => x / 1000) (user_coords L2 N2) in
  exists v, entry u i j = Some v /\
  displays (Image (transposed u) (hd 0 xk - d1 / 1000 / 2, last xk 0 + d1 / 1000 / 2, hd 0 yk - d2 / 1000 / 2, last yk 0 + d2 / 1000 / 2) lo hi) x y v.
Proof.
  intros u N1 N2 L1 L2 d1 d2 lo hi i j x y HS Hi Hj H1 H2 E1 E2 HX HY xk yk.
  destruct (transposed_entry N1 N2 u i j HS Hi Hj) as (row & v & TL & TR & RL & RV & EV). exists v. split; [exact EV|].
  destruct (coords_ends L1 N1) as (X0 & XL); [lia|]. destruct (coords_ends L2 N2) as (Y0 & YL); [lia|]. fold xk in X0, XL. fold yk in Y0, YL.
  unfold displays. cbn [im_extent im_array]. exists j, i, row. split; [exact TR|]. split; [exact RV|]. rewrite X0, XL, Y0, YL, RL, TL, <- E1, <- E2.
  assert (I1 : 0 < INR N1) by (apply lt_0_INR; lia). assert (I2 : 0 < INR N2) by (apply lt_0_INR; lia).
  rewrite !minus_INR by lia. rewrite !S_INR. apply Rabs_def2 in HX, HY. cbn [INR].
  replace ((INR N1 - (0 + 1)) * d1 / 1000 + d1 / 1000 / 2 - (0 - d1 / 1000 / 2)) with (INR N1 * (d1 / 1000)) by field.
  replace ((INR N2 - (0 + 1)) * d2 / 1000 + d2 / 1000 / 2 - (0 - d2 / 1000 / 2)) with (INR N2 * (d2 / 1000)) by field.
  replace (INR N1 * (d1 / 1000) / INR N1) with (d1 / 1000) by (field; lra). replace (INR N2 * (d2 / 1000) / INR N2) with (d2 / 1000) by (field; lra).
  split; split; lra.
Qed.

Lemma plot_before : forall quad cfg w, low_construct quad cfg = Ok w -> plot_velocity_fields w = Err RuntimeError.
Proof.
  intros quad cfg w H. unfold low_construct in H. destruct (compute_c quad cfg) as [c|]; [|discriminate]. cbn [bind] in H.
  destruct (make_low_grid cfg) as [g|]; [|discriminate]. cbn [bind] in H. injection H as <-. reflexivity.
Qed.

Lemma plot_after : forall quad cfg w G (gauss : G -> R * G) g0, positive_lengths cfg -> low_construct quad cfg = Ok w ->
  exists w' g1 u1 u2 im1 im2, low_generate gauss w g0 = (Ok w', g1) /\ lw_u w' = Some (u1, u2) /\ plot_velocity_fields w' = Ok (im1, im2)
  /\ (forall i j x y, (i < 2 ^ lc_e1 cfg)%nat -> (j < 2 ^ lc_e2 cfg)%nat ->
        Rabs (1000 * x - INR i * asked_dx cfg) < asked_dx cfg / 2 -> Rabs (1000 * y - INR j * asked_dy cfg) < asked_dy cfg / 2 ->
        exists v1 v2, entry u1 i j = Some v1 /\ entry u2 i j = Some v2 /\ displays im1 x y v1 /\ displays im2 x y v2)
  /\ im_vmin im1 = im_vmin im2 /\ im_vmax im1 = im_vmax im2 /\ im_vmin im1 = - im_vmax im1
  /\ (forall i j v, entry u1 i j = Some v \/ entry u2 i j = Some v -> in_colour_range im1 v)
  /\ (exists i j v, (entry u1 i j = Some v \/ entry u2 i j = Some v) /\ im_vmax im1 = Rabs v).
Proof.
  intros quad cfg w G gauss g0 HP HC. destruct (low_constructed quad cfg w HC HP) as (_ & F & _).
  destruct (low_generated G gauss w cfg g0 F) as (u1 & u2 & E & S1 & S2 & V). set (gr := lw_grid w) in *.
  exists (LowGen (lw_cfg w) (lw_c w) gr (Some (u1, u2))). do 5 eexists. split; [exact E|]. split; [reflexivity|]. split; [reflexivity|].
  rewrite (gf_N1 _ _ F), (gf_N2 _ _ F) in S1, S2.
  destruct HP as (HL & Hf1 & Hf2).
  assert (P1 : 0 < 2 ^ lc_e1 cfg) by (apply pow_lt; lra). assert (P2 : 0 < 2 ^ lc_e2 cfg) by (apply pow_lt; lra).
  assert (DX : 0 < asked_dx cfg) by (unfold asked_dx, asked_L1; apply Rdiv_lt_0_compat; [apply Rmult_lt_0_compat; assumption|exact P1]).
  assert (DY : 0 < asked_dy cfg) by (unfold asked_dy, asked_L2; apply Rdiv_lt_0_compat; [apply Rmult_lt_0_compat; assumption|exact P2]).
  cbn [lw_grid im_vmin im_vmax]. split.
  - intros i j x y Hi Hj HX HY. rewrite (gf_N1 _ _ F), (gf_N2 _ _ F), (gf_L1 _ _ F), (gf_L2 _ _ F), (gf_dx _ _ F), (gf_dy _ _ F).
    assert (E1 : asked_dx cfg = asked_L1 cfg / INR (2 ^ lc_e1 cfg)) by (rewrite pow_INR; reflexivity).
    assert (E2 : asked_dy cfg = asked_L2 cfg / INR (2 ^ lc_e2 cfg)) by (rewrite pow_INR; reflexivity).
    destruct (pixel u1 _ _ (asked_L1 cfg) (asked_L2 cfg) _ _ (- Rmax (Rabs (Rmin (array_min u1) (array_min u2))) (Rabs (Rmax (array_max u1) (array_max u2))))
      (Rmax (Rabs (Rmin (array_min u1) (array_min u2))) (Rabs (Rmax (array_max u1) (array_max u2)))) i j x y S1 Hi Hj DX DY E1 E2 HX HY) as (v1 & A1 & B1).
    destruct (pixel u2 _ _ (asked_L1 cfg) (asked_L2 cfg) _ _ (- Rmax (Rabs (Rmin (array_min u1) (array_min u2))) (Rabs (Rmax (array_max u1) (array_max u2))))
      (Rmax (Rabs (Rmin (array_min u1) (array_min u2))) (Rabs (Rmax (array_max u1) (array_max u2)))) i j x y S2 Hi Hj DX DY E1 E2 HX HY) as (v2 & A2 & B2).
    exists v1, v2. split; [exact A1|]. split; [exact A2|]. split; [exact B1|exact B2].
  - do 3 (split; [reflexivity|]).
    assert (Z1 : (0 < 2 ^ lc_e1 cfg)%nat) by (pose proof (Nat.pow_nonzero 2 (lc_e1 cfg)); lia).
    assert (Z2 : (0 < 2 ^ lc_e2 cfg)%nat) by (pose proof (Nat.pow_nonzero 2 (lc_e2 cfg)); lia).
    assert (NE : forall u : list (list R), shape2 (2 ^ lc_e1 cfg) (2 ^ lc_e2 cfg) u -> concat u <> []).
    { intros u HS Hc. destruct (transposed_entry _ _ u 0 0 HS Z1 Z2) as (_ & v & _ & _ & _ & _ & EV). apply entry_concat in EV. rewrite Hc in EV. exact EV. }
    destruct (array_bounds u1 (NE u1 S1)) as (B1 & M1 & X1). destruct (array_bounds u2 (NE u2 S2)) as (B2 & M2 & X2).
    set (lo := Rmin (array_min u1) (array_min u2)). set (hi := Rmax (array_max u1) (array_max u2)).
    assert (L1 : lo <= array_min u1) by apply Rmin_l. assert (L2 : lo <= array_min u2) by apply Rmin_r.
    assert (H1 : array_max u1 <= hi) by apply Rmax_l. assert (H2 : array_max u2 <= hi) by apply Rmax_r.
    split.
    + intros i j v HV. unfold in_colour_range. cbn [im_vmin im_vmax].
      assert (HB : lo <= v <= hi) by (destruct HV as [HV|HV]; apply entry_concat in HV; [specialize (B1 v HV)|specialize (B2 v HV)]; lra).
      pose proof (Rmax_l (Rabs lo) (Rabs hi)). pose proof (Rmax_r (Rabs lo) (Rabs hi)). pose proof (Rle_abs hi). pose proof (Rle_abs (- lo)) as Q. rewrite Rabs_Ropp in Q. lra.
    + assert (IL : In lo (concat u1) \/ In lo (concat u2)) by (unfold lo, Rmin; destruct (Rle_dec _ _); [left|right]; assumption).
      assert (IH : In hi (concat u1) \/ In hi (concat u2)) by (unfold hi, Rmax; destruct (Rle_dec _ _); [right|left]; assumption).
      assert (G1 : forall v, In v (concat u1) \/ In v (concat u2) -> exists i j, entry u1 i j = Some v \/ entry u2 i j = Some v).
      { intros v [H|H]; apply concat_entry in H; destruct H as (i & j & H); exists i, j; [left|right]; exact H. }
      destruct (Rle_dec (Rabs lo) (Rabs hi)) as [C|C].
      * destruct (G1 hi IH) as (i & j & H). exists i, j, hi. split; [exact H|]. apply Rmax_right. exact C.
      * destruct (G1 lo IL) as (i & j & H). exists i, j, lo. split; [exact H|]. apply Rmax_left. lra.
Qed.
