(** Lemmas about schedules of the domain study and about the anisotropy study. *)

From Coq Require Import String Reals List ZArith Bool Lia Lra Permutation.
From Coquelicot Require Import Coquelicot.
From Verif Require Import Prelude GenModel GenSpec GenProofs DftModel DftSpec DftProofs DftMore DftCov LowModel LowSpec LowProofs LowFourier LowMore LowSpectrum LowCov LowApi EstSpec EstProofs StudyModel StudySpec StudyProofs StudyPool StudyStats StudyAverages StudyResults.
Import ListNotations.
Open Scope R_scope.

(** ** Processes *)

(** Separate processes: the figure is that of the tasks run one by one from the same
    state. *)
Lemma domain_separate : forall G (gauss : G -> R * G) quad factors g ps done, / 10^16 <= quad (low_shape 15000 500) ->
  List.Forall (fun f => 0 < f) factors -> NoDup factors -> NoDup ps -> domain_execution gauss quad factors g ps done ->
  domain_figure done = domain_figure (map (fun f => fst (run_single_domain gauss quad f domain_base 5 g)) factors).
Proof.
  intros G gauss quad factors g ps done HQ HF HN HNp HE. unfold domain_figure.
  rewrite (sort_unique (fun a : R * stats * R => fst (fst a)) (oks done) (oks (map (fun f => fst (run_single_domain gauss quad f domain_base 5 g)) factors))); [reflexivity| |].
  - exact (domain_fresh G gauss quad factors g ps done HNp HE).
  - destruct (domain_oks gauss quad HQ factors g ps done HF HE) as (P & _). apply (Permutation_NoDup (Permutation_sym P)). apply NoDup_filter. exact HN.
Qed.

(** A source of numbers which counts its draws. *)
Definition counting (h : nat -> R) : nat -> R * nat := fun z => (h z, S z).

Lemma counting_after : forall h n g, after (counting h) g n = (g + n)%nat.
Proof. intros h n. induction n as [|n IH]; intros g; cbn [after]; [lia|]. cbn [counting snd]. rewrite IH. lia. Qed.

Lemma counting_stream : forall h g i, stream (counting h) g i = h (g + i)%nat.
Proof. intros h g i. revert g. induction i as [|i IH]; intros g; cbn [stream]; cbn [counting fst snd]; [f_equal; lia|]. rewrite IH. f_equal. lia. Qed.

Section Silence.

Variables (quad : (R -> R) -> R) (cfg : low_config) (w : low_gen) (n : nat) (M : nat).
Hypothesis HP : positive_lengths cfg.
Hypothesis HC : low_construct quad cfg = Ok w.
Hypothesis HD : plain_domain cfg.
Hypothesis Hn : (1 <= n)%nat.
Let N1 := (2 ^ lc_e1 cfg)%nat.
Let N2 := (2 ^ lc_e2 cfg)%nat.
Hypothesis HM : (n * (N1 * N2) = M)%nat.
Let h := fun z : nat => if (z =? M)%nat then 1 else 0.

Lemma silent_run : exists a b c e, run_single (counting h) quad cfg n 0%nat = (Ok (0, a, b, c), e) /\ e = M.
Proof.
  destruct (run_single_plain nat (counting h) quad cfg w n 0%nat HP HC HD) as (t1 & t2 & S1 & S2 & ER & VV). fold N1 N2 in S1, S2, ER, VV. rewrite ER, counting_after, HM.
  destruct (low_constructed quad cfg w HC HP) as (EC & F & _). destruct (plain_counts cfg (lw_grid w) HP HD F) as (C1 & C2 & _). fold N1 in C1. fold N2 in C2.
  assert (P1 : (0 < N1)%nat) by (pose proof (gf_21 _ _ F); lia). assert (P2 : (0 < N2)%nat) by (pose proof (gf_22 _ _ F); lia).
  destruct (component_kernels quad cfg w HP HC) as (A1 & A2 & HT1 & HT2). rewrite C1, C2 in HT1, HT2.
  assert (EZ : sum_sq (div2 t1 n) = 0).
  { rewrite (sum_sq_nodes N1 N2) by (apply div2_shape; exact S1). rewrite (Rsum_ext _ (nodes_of (N1, N2, 1%nat)) _ (fun _ => 0)); [rewrite Rsum_constant; ring|].
    intros x Hx. apply nodes_of_In in Hx. rewrite (div2_at N1 N2) by assumption. rewrite (proj1 (VV x Hx)).
    rewrite (Rsum_ext _ (seq 0 n) _ (fun _ => 0)); [rewrite Rsum_constant; unfold Rdiv; ring|]. intros r Hr. apply in_seq in Hr.
    rewrite (expansion (N1, N2, 1%nat) ltac:(unfold nonempty; lia) _ A1 HT1 _ x Hx). rewrite (Rsum_ext _ (nodes_of (N1, N2, 1%nat)) _ (fun _ => 0)); [rewrite Rsum_constant; ring|].
    intros [[p q] z] Hy. apply nodes_of_In in Hy. destruct Hy as (Hp & Hq & _). unfold noise_of. rewrite counting_stream. unfold h.
    destruct (Nat.eqb_spec (0 + (r * (N1 * N2) + p * N2 + q)) M) as [E|_]; [|ring]. exfalso.
    pose proof (Nat.mul_le_mono_r (S r) n (N1 * N2) ltac:(lia)). pose proof (Nat.mul_le_mono_r (S p) N1 N2 ltac:(lia)). lia. }
  rewrite EZ, !Rmult_0_l. do 4 eexists. split; reflexivity.
Qed.

Hypothesis Hs : 0 < lc_sigma2 cfg.
Hypothesis H6 : lc_L cfg <= 10^6.
Hypothesis H8 : asked_L2 cfg <= 10^8.
Hypothesis H4 : (4 <= N2)%nat.

Lemma struck_run : exists v a b c e, run_single (counting h) quad cfg n M = (Ok (v, a, b, c), e) /\ 0 < v.
Proof.
  destruct (run_single_plain nat (counting h) quad cfg w n M HP HC HD) as (t1 & t2 & S1 & S2 & ER & VV). fold N1 N2 in S1, S2, ER, VV. rewrite ER.
  destruct (low_constructed quad cfg w HC HP) as (EC & F & _). destruct (plain_counts cfg (lw_grid w) HP HD F) as (C1 & C2 & C3 & C4 & C5 & C6 & C7 & _). fold N1 in C1. fold N2 in C2.
  assert (P1 : (0 < N1)%nat) by (pose proof (gf_21 _ _ F); lia). assert (P2 : (0 < N2)%nat) by (pose proof (gf_22 _ _ F); lia).
  destruct (component_kernels quad cfg w HP HC) as (A1 & A2 & HT1 & HT2). rewrite C1, C2 in HT1, HT2.
  destruct (field_active quad cfg w HP HC Hs H6) as [FA _]. rewrite C1, C2, C6 in FA. destruct (FA H8 H4) as (x & Hx & NZ). clear FA.
  assert (EX : at2 t1 x = low_sample (gen_Q1 w) (lw_grid w) (spike (0, 0, 0)%nat) x).
  { rewrite (proj1 (VV x Hx)). replace n with (S (n - 1)) by lia. rewrite Rsum_last. rewrite (Rsum_ext _ (seq 0 (n - 1)) _ (fun _ => 0)).
    - rewrite Rsum_constant, Rmult_0_r, Rplus_0_l. apply low_sample_ext. intros [[p q] z] Hy. unfold comp_extents in Hy. rewrite C1, C2 in Hy. destruct Hy as (Hp & Hq & Hz). unfold noise_of, spike. rewrite counting_stream. unfold h.
      replace z with 0%nat by lia. cbn [Nat.eqb]. rewrite Nat.mul_0_l, Nat.add_0_l, andb_true_r.
      destruct (Nat.eqb_spec p 0) as [->|Np].
      + rewrite Nat.mul_0_l, Nat.add_0_l. destruct (Nat.eqb_spec q 0) as [->|Nq]; cbn [andb].
        * rewrite Nat.add_0_r, Nat.eqb_refl. reflexivity.
        * destruct (Nat.eqb_spec (M + q) M) as [E|_]; [lia|reflexivity].
      + cbn [andb]. destruct (Nat.eqb_spec (M + (p * N2 + q)) M) as [E|_]; [|reflexivity]. pose proof (Nat.mul_le_mono_r 1 p N2 ltac:(lia)). lia.
    - intros r _. rewrite (expansion (N1, N2, 1%nat) ltac:(unfold nonempty; lia) _ A1 HT1 _ x Hx). rewrite (Rsum_ext _ (nodes_of (N1, N2, 1%nat)) _ (fun _ => 0)); [rewrite Rsum_constant; ring|].
      intros [[p q] z] Hy. unfold noise_of. rewrite counting_stream. unfold h.
      destruct (Nat.eqb_spec (M + (S r * (N1 * N2) + p * N2 + q)) M) as [E|_]; [|ring]. exfalso. pose proof (Nat.mul_le_mono_r 1 N1 N2 ltac:(lia)). cbn [Nat.mul] in E. lia. }
  assert (PS : 0 < sum_sq (div2 t1 n)).
  { rewrite (sum_sq_nodes N1 N2) by (apply div2_shape; exact S1).
    apply Rlt_le_trans with ((at2 (div2 t1 n) x)^2).
    - rewrite (div2_at N1 N2) by assumption. rewrite EX. apply pow2_gt_0. unfold Rdiv. apply Rmult_integral_contrapositive_currified; [exact NZ|]. apply Rinv_neq_0_compat, not_0_INR. lia.
    - apply (Rsum_ge_term _ (nodes_of (N1, N2, 1%nat)) (fun x => (at2 (div2 t1 n) x)^2)); [intros y _; apply pow2_ge_0|apply nodes_of_In; exact Hx]. }
  do 5 eexists. split; [reflexivity|]. destruct HD as (ED & _). rewrite <- ED. apply Rmult_lt_0_compat; [apply Rmult_lt_0_compat|]; assumption.
Qed.

End Silence.

Lemma factor_plain : forall f, 5 <= f -> plain_domain (with_factor f domain_base).
Proof. intros f Hf. apply (square_plain (with_factor f domain_base) f 9); try reflexivity; [lia|exact Hf]. Qed.

(** Which process takes which task changes the figure. *)
Lemma domain_processes : forall quad, / 10^16 <= quad (low_shape 15000 500) ->
  exists h done done', domain_execution (counting h) quad [5; 6] 0%nat [0; 1]%nat done /\ domain_execution (counting h) quad [5; 6] 0%nat [0; 0]%nat done'
  /\ domain_figure done <> domain_figure done'.
Proof.
  intros quad HQ. pose (M := (5 * (2 ^ lc_e1 domain_base * 2 ^ lc_e2 domain_base))%nat). pose (h := fun z : nat => if (z =? M)%nat then 1 else 0).
  assert (HP : forall f, 0 < f -> positive_lengths (with_factor f domain_base)) by (intros f Hf; unfold positive_lengths; cbn; lra).
  destruct (low_construct_ok quad (with_factor 5 domain_base) (HP 5 ltac:(lra)) HQ) as (w5 & C5). destruct (low_construct_ok quad (with_factor 6 domain_base) (HP 6 ltac:(lra)) HQ) as (w6 & C6).
  assert (EM5 : (5 * (2 ^ lc_e1 (with_factor 5 domain_base) * 2 ^ lc_e2 (with_factor 5 domain_base)) = M)%nat) by reflexivity.
  assert (EM6 : (5 * (2 ^ lc_e1 (with_factor 6 domain_base) * 2 ^ lc_e2 (with_factor 6 domain_base)) = M)%nat) by reflexivity.
  destruct (silent_run quad _ w5 5 M (HP 5 ltac:(lra)) C5 (factor_plain 5 ltac:(lra)) ltac:(lia) EM5) as (a5 & b5 & c5 & e5 & R5 & E5).
  destruct (silent_run quad _ w6 5 M (HP 6 ltac:(lra)) C6 (factor_plain 6 ltac:(lra)) ltac:(lia) EM6) as (a6 & b6 & c6 & e6 & R6 & E6).
  destruct (struck_run quad _ w6 5 M (HP 6 ltac:(lra)) C6 (factor_plain 6 ltac:(lra)) ltac:(lia) EM6) as (v & a & b & c & e & RS & PV).
  { cbn. lra. } { cbn. lra. } { unfold asked_L2. cbn. lra. } { pose proof (Nat.pow_le_mono_r 2 2 (lc_e2 (with_factor 6 domain_base)) ltac:(lia) ltac:(cbn; lia)) as Q. cbn [Nat.pow] in Q. exact Q. }
  fold h in R5, R6, RS. subst e5.
  exists h, (pool (fun f => run_single_domain (counting h) quad f domain_base 5) (fun _ => 0%nat) (combine [5; 6] [0; 1]%nat)),
         (pool (fun f => run_single_domain (counting h) quad f domain_base 5) (fun _ => 0%nat) (combine [5; 6] [0; 0]%nat)).
  split; [split; [reflexivity|apply Permutation_refl]|]. split; [split; [reflexivity|apply Permutation_refl]|].
  cbn [combine pool]. unfold run_single_domain. rewrite R5. cbn [bind Nat.eqb]. rewrite R6, RS. cbn [bind oks]. intros EQ.
  assert (L56 : Rleb 5 6 = true) by (apply Rleb_true; lra).
  unfold domain_figure in EQ. cbn [oks sort_by fold_right insert_by fst snd] in EQ. rewrite L56 in EQ. unfold curves_of in EQ. cbn [map combine fst snd] in EQ.
  apply (f_equal (fun f : option (curves R) => match f with Some (_ :: (_, y) :: _, _, _, _) => y | _ => 0 end)) in EQ. cbn in EQ. lra.
Qed.

(** ** Anisotropy study *)

Section Angles.

Variables (G : Type) (gauss : G -> R * G) (quad : (R -> R) -> R) (base : low_config).
Hypothesis HP : positive_lengths base.
Hypothesis HQ : / 10^16 <= quad (low_shape (lc_L base) (lc_zi base)).

Lemma angle_generator : forall a g, exists w, low_construct quad (with_angle a base) = Ok w
  /\ (exists w' g' u1 u2, low_generate gauss w g = (Ok w', g') /\ lw_u w' = Some (u1, u2) /\ shape2 (2 ^ lc_e1 base) (2 ^ lc_e2 base) u1 /\ shape2 (2 ^ lc_e1 base) (2 ^ lc_e2 base) u2)
  /\ forall n, exists v g', average_variances gauss n w g = (Ok v, g').
Proof.
  intros a g. assert (HPa : positive_lengths (with_angle a base)) by exact HP. destruct (low_construct_ok quad (with_angle a base) HPa HQ) as (w & HC). exists w. split; [exact HC|].
  destruct (low_constructed quad _ w HC HPa) as (EC & F & _). split.
  - destruct (realisation G gauss _ w w g HPa EC F eq_refl eq_refl eq_refl) as (u1 & u2 & EG & S1 & S2 & _). rewrite (gf_N1 _ _ F), (gf_N2 _ _ F) in S1, S2. do 2 eexists. exists u1, u2. split; [exact EG|]. split; [reflexivity|]. split; assumption.
  - intros n. unfold average_variances. rewrite (realisation_list G gauss _ w HPa EC F n w g eq_refl eq_refl eq_refl). do 2 eexists. reflexivity.
Qed.

Definition row_ok (a : R) (f : R * (plane * plane)) : Prop :=
  fst f = a /\ drawn_with gauss quad (with_angle a base) (snd f) /\ shape2 (2 ^ lc_e1 base) (2 ^ lc_e2 base) (fst (snd f)) /\ shape2 (2 ^ lc_e1 base) (2 ^ lc_e2 base) (snd (snd f)).

Lemma angle_fields_ok : forall angles g, exists fs g1, angle_fields gauss quad base angles g = (Ok fs, g1) /\ List.Forall2 row_ok angles fs.
Proof.
  induction angles as [|a angles IH]; intros g; [exists [], g; split; [reflexivity|constructor]|]. cbn [angle_fields].
  destruct (angle_generator a g) as (w & HC & (w' & g' & u1 & u2 & EG & EU & S1 & S2) & _). rewrite HC, EG, EU. destruct (IH g') as (fs & g2 & EF & FF). rewrite EF. cbn [bind].
  exists ((a, (u1, u2)) :: fs), g2. split; [reflexivity|]. constructor; [|exact FF]. split; [reflexivity|]. split; [|split; assumption]. exists w, w', g, g'. auto.
Qed.

Lemma extreme_min : forall l v, extreme Rmin l = Ok v -> (forall x, In x (concat (concat l)) -> v <= x) /\ In v (concat (concat l)).
Proof.
  intros l v. unfold extreme. destruct (concat (concat l)) as [|y t]; [discriminate|]. intros E. injection E as <-. induction t as [|z t [IH1 IH2]]; cbn [fold_right].
  - split; [intros x [<-|[]]; lra|left; reflexivity].
  - split.
    + intros x Hx. pose proof (Rmin_l z (fold_right Rmin y t)). pose proof (Rmin_r z (fold_right Rmin y t)). destruct Hx as [<-|[<-|Hx]].
      * pose proof (IH1 y (or_introl eq_refl)). lra.
      * assumption.
      * pose proof (IH1 x (or_intror Hx)). lra.
    + unfold Rmin at 1. destruct (Rle_dec z (fold_right Rmin y t)); [right; left; reflexivity|]. destruct IH2 as [E|I]; [left; exact E|right; right; exact I].
Qed.

Lemma extreme_max : forall l v, extreme Rmax l = Ok v -> (forall x, In x (concat (concat l)) -> x <= v) /\ In v (concat (concat l)).
Proof.
  intros l v. unfold extreme. destruct (concat (concat l)) as [|y t]; [discriminate|]. intros E. injection E as <-. induction t as [|z t [IH1 IH2]]; cbn [fold_right].
  - split; [intros x [<-|[]]; lra|left; reflexivity].
  - split.
    + intros x Hx. pose proof (Rmax_l z (fold_right Rmax y t)). pose proof (Rmax_r z (fold_right Rmax y t)). destruct Hx as [<-|[<-|Hx]].
      * pose proof (IH1 y (or_introl eq_refl)). lra.
      * assumption.
      * pose proof (IH1 x (or_intror Hx)). lra.
    + unfold Rmax at 1. destruct (Rle_dec z (fold_right Rmax y t)); [|right; left; reflexivity]. destruct IH2 as [E|I]; [left; exact E|right; right; exact I].
Qed.

Lemma extreme_some : forall f l, (exists x, In x (concat (concat l))) -> is_ok (extreme f l).
Proof. intros f l (x & Hx). unfold extreme. destruct (concat (concat l)); [destruct Hx|]. eexists. reflexivity. Qed.

Lemma in_fields : forall (sel : plane * plane -> plane) (fs : list (R * (plane * plane))) x,
  In x (concat (concat (map (fun f => sel (snd f)) fs))) <-> exists f, In f fs /\ In x (concat (sel (snd f))).
Proof.
  intros sel fs x. induction fs as [|f fs IH]; cbn [map concat].
  - split; [intros []|intros (f & [] & _)].
  - rewrite concat_app, in_app_iff, IH. split.
    + intros [H|(f' & Hf & H)]; [exists f; split; [left; reflexivity|exact H]|exists f'; split; [right; exact Hf|exact H]].
    + intros (f' & [<-|Hf] & H); [left; exact H|right; exists f'; split; assumption].
Qed.

Lemma Rmin_either : forall a b, {Rmin a b = a} + {Rmin a b = b}.
Proof. intros a b. unfold Rmin. destruct (Rle_dec a b); auto. Qed.

Lemma Rmax_either : forall a b, {Rmax a b = a} + {Rmax a b = b}.
Proof. intros a b. unfold Rmax. destruct (Rle_dec a b); auto. Qed.

(** The limit covers every value and is attained. *)
Lemma colour_limit_spec : forall fs v, colour_limit fs = Ok v ->
  (forall f x, In f fs -> In x (values_of (snd f)) -> Rabs x <= v) /\ exists f x, In f fs /\ In x (values_of (snd f)) /\ Rabs x = v.
Proof.
  intros fs v. unfold colour_limit. cbv zeta.
  destruct (extreme Rmin (map (fun f => fst (snd f)) fs)) as [a|] eqn:Ea; [|discriminate]. destruct (extreme Rmin (map (fun f => snd (snd f)) fs)) as [b|] eqn:Eb; [|discriminate].
  destruct (extreme Rmax (map (fun f => fst (snd f)) fs)) as [c|] eqn:Ec; [|discriminate]. destruct (extreme Rmax (map (fun f => snd (snd f)) fs)) as [e|] eqn:Ee; [|discriminate].
  cbn [bind]. intros E. apply (f_equal (fun r => match r with Ok x => x | Err _ => 0 end)) in E. cbv beta iota in E.
  destruct (extreme_min _ _ Ea) as [A1 A2]. destruct (extreme_min _ _ Eb) as [B1 B2]. destruct (extreme_max _ _ Ec) as [C1 C2]. destruct (extreme_max _ _ Ee) as [D1 D2].
  apply in_fields in A2, B2, C2, D2.
  assert (IV : forall (f : R * (plane * plane)) x, (In x (concat (fst (snd f))) \/ In x (concat (snd (snd f)))) <-> In x (values_of (snd f))) by (intros f x; unfold values_of; rewrite in_app_iff; tauto).
  split.
  - intros f x Hf Hx. apply IV in Hx. assert (LO : Rmin a b <= x).
    { destruct Hx as [Hx|Hx]; [apply Rle_trans with a; [apply Rmin_l|]; apply A1, in_fields; exists f; auto|apply Rle_trans with b; [apply Rmin_r|]; apply B1, in_fields; exists f; auto]. }
    assert (HI : x <= Rmax c e).
    { destruct Hx as [Hx|Hx]; [apply Rle_trans with c; [|apply Rmax_l]; apply C1, in_fields; exists f; auto|apply Rle_trans with e; [|apply Rmax_r]; apply D1, in_fields; exists f; auto]. }
    rewrite <- E. unfold Rabs at 1. destruct (Rcase_abs x).
    + apply Rle_trans with (Rabs (Rmin a b)); [|apply Rmax_l]. rewrite Rabs_left1 by lra. lra.
    + apply Rle_trans with (Rabs (Rmax c e)); [|apply Rmax_r]. rewrite Rabs_right by lra. lra.
  - assert (HA : exists f, In f fs /\ In (Rmin a b) (values_of (snd f))).
    { destruct (Rmin_either a b) as [->| ->]; [destruct A2 as (f & F1 & F2)|destruct B2 as (f & F1 & F2)]; exists f; (split; [exact F1|apply IV; auto]). }
    assert (HB : exists f, In f fs /\ In (Rmax c e) (values_of (snd f))).
    { destruct (Rmax_either c e) as [->| ->]; [destruct C2 as (f & F1 & F2)|destruct D2 as (f & F1 & F2)]; exists f; (split; [exact F1|apply IV; auto]). }
    destruct (Rmax_either (Rabs (Rmin a b)) (Rabs (Rmax c e))) as [M|M]; rewrite M in E; [destruct HA as (f & F1 & F2)|destruct HB as (f & F1 & F2)]; exists f; eexists; split; eauto.
Qed.

Lemma colour_limit_ok : forall (fs : list (R * (plane * plane))) (f : R * (plane * plane)), In f fs -> (exists x, In x (concat (fst (snd f)))) -> (exists x, In x (concat (snd (snd f)))) -> is_ok (colour_limit fs).
Proof.
  intros fs f Hf (x & Hx) (y & Hy). unfold colour_limit. cbv zeta.
  assert (X : exists x, In x (concat (concat (map (fun f : R * (plane * plane) => fst (snd f)) fs)))) by (exists x; apply in_fields; exists f; auto).
  assert (Y : exists x, In x (concat (concat (map (fun f : R * (plane * plane) => snd (snd f)) fs)))) by (exists y; apply in_fields; exists f; auto).
  destruct (extreme_some Rmin _ X) as (a & ->). destruct (extreme_some Rmin _ Y) as (b & ->). destruct (extreme_some Rmax _ X) as (c & ->). destruct (extreme_some Rmax _ Y) as (e & ->). eexists. reflexivity.
Qed.

(** Dictionaries. *)
Lemma Reqb_true : forall x y, Reqb x y = true <-> x = y.
Proof. intros x y. unfold Reqb. destruct (Req_EM_T x y); split; congruence. Qed.

Lemma Reqb_false : forall x y, Reqb x y = false <-> x <> y.
Proof. intros x y. unfold Reqb. destruct (Req_EM_T x y); split; congruence. Qed.

Lemma dict_get_set : forall A (d : list (R * A)) k v, dict_get k (dict_set k v d) = Ok v.
Proof.
  intros A d k v. assert (RR : Reqb k k = true) by (apply Reqb_true; reflexivity). induction d as [|[k' v'] d IH]; cbn [dict_set dict_get]; [rewrite RR; reflexivity|].
  destruct (Reqb k k') eqn:E; cbn [dict_get]; [rewrite RR; reflexivity|]. rewrite E. exact IH.
Qed.

Lemma dict_get_other : forall A (d : list (R * A)) k k' v, k' <> k -> dict_get k' (dict_set k v d) = dict_get k' d.
Proof.
  intros A d k k' v NE. assert (NR : Reqb k' k = false) by (apply Reqb_false; exact NE). induction d as [|[c u] d IH]; cbn [dict_set dict_get]; [rewrite NR; reflexivity|].
  destruct (Reqb k c) eqn:E; cbn [dict_get].
  - apply Reqb_true in E. subst c. rewrite NR. reflexivity.
  - destruct (Reqb k' c); [reflexivity|exact IH].
Qed.

Lemma stored_get : forall (fs : list (R * (plane * plane))) d a, (In a (map fst fs) \/ exists u, dict_get a d = Ok u) ->
  exists u, dict_get a (fold_left (fun d f => dict_set (fst f) (snd f) d) fs d) = Ok u /\ (In (a, u) fs \/ dict_get a d = Ok u).
Proof.
  induction fs as [|[k v] fs IH]; intros d a H; cbn [fold_left].
  - destruct H as [[]|(u & Hu)]. exists u. auto.
  - cbn [fst snd]. destruct (Req_dec a k) as [->|NE].
    + destruct (IH (dict_set k v d) k) as (u & E & [I|I]).
      * right. exists v. apply dict_get_set.
      * exists u. split; [exact E|]. left. right. exact I.
      * rewrite dict_get_set in I. injection I as <-. exists v. split; [exact E|]. left. left. reflexivity.
    + destruct (IH (dict_set k v d) a) as (u & E & I).
      * destruct H as [[H|H]|(u & H)]; [cbn in H; congruence|left; exact H|right; exists u; rewrite dict_get_other by exact NE; exact H].
      * exists u. split; [exact E|]. destruct I as [I|I]; [left; right; exact I|]. rewrite dict_get_other in I by exact NE. right. exact I.
Qed.

Lemma dict_set_new : forall A (d : list (R * A)) k v, ~ In k (map fst d) -> dict_set k v d = d ++ [(k, v)].
Proof.
  intros A d k v H. induction d as [|[c u] d IH]; [reflexivity|]. cbn [dict_set]. destruct (Reqb k c) eqn:E.
  - apply Reqb_true in E. subst c. exfalso. apply H. left. reflexivity.
  - cbn. rewrite IH; [reflexivity|]. intros I. apply H. right. exact I.
Qed.

Definition result_ok (n : nat) (a : R) (e : R * (R * R * R)) : Prop :=
  fst e = a /\ exists w g g' v1 v2, low_construct quad (with_angle a base) = Ok w /\ average_variances gauss n w g = (Ok (v1, v2), g') /\ snd e = (v1, v2, v1 + v2).

Lemma angle_results_ok : forall n (plot single : bool) fs angles d rows g, NoDup angles -> (forall a, In a angles -> ~ In a (map fst d)) -> (plot = true -> single = false) ->
  (plot = true -> forall a, In a angles -> In a (map fst fs)) ->
  exists es rs g', angle_results gauss quad base n plot single (generated_fields fs) angles d rows g = (Ok (d ++ es, rows ++ rs), g')
  /\ List.Forall2 (result_ok n) angles es
  /\ (plot = true -> map fst rs = angles /\ forall r, In r rs -> In r fs) /\ (plot = false -> rs = []).
Proof.
  intros n plot single fs angles. induction angles as [|a angles IH]; intros d rows g HN HD HS HF.
  - exists [], [], g. cbn [angle_results]. rewrite !app_nil_r. split; [reflexivity|]. split; [constructor|]. split; [intros _; split; [reflexivity|intros r []]|reflexivity].
  - cbn [angle_results]. destruct (angle_generator a g) as (w & HC & _ & HA). destruct (HA n) as ([v1 v2] & g1 & EA). rewrite HC, EA. inversion HN as [|? ? NI ND]; subst.
    rewrite (dict_set_new _ d a) by (apply HD; left; reflexivity).
    assert (HD' : forall b, In b angles -> ~ In b (map fst (d ++ [(a, (v1, v2, v1 + v2))]))).
    { intros b Hb Hin. rewrite map_app, in_app_iff in Hin. destruct Hin as [Hin|[<-|[]]]; [exact (HD b (or_intror Hb) Hin)|exact (NI Hb)]. }
    assert (RE : result_ok n a (a, (v1, v2, v1 + v2))) by (split; [reflexivity|exists w, g, g1, v1, v2; auto]).
    destruct plot.
    + destruct (stored_get fs [] a (or_introl (HF eq_refl a (or_introl eq_refl)))) as (u & EU & [IU|IU]); [|discriminate]. unfold generated_fields at 1. rewrite EU, (HS eq_refl).
      destruct (IH (d ++ [(a, (v1, v2, v1 + v2))]) (rows ++ [(a, u)]) g1 ND HD' HS ltac:(intros _ b Hb; apply (HF eq_refl); right; exact Hb)) as (es & rs & g' & ER & F1 & F2 & F3). rewrite (HS eq_refl) in ER. rewrite ER.
      exists ((a, (v1, v2, v1 + v2)) :: es), ((a, u) :: rs), g'. rewrite <- !app_assoc. split; [reflexivity|]. split; [constructor; assumption|]. split; [|discriminate].
      intros _. destruct (F2 eq_refl) as [M I]. split; [cbn; f_equal; exact M|]. intros r [<-|Hr]; [exact IU|exact (I r Hr)].
    + destruct (IH (d ++ [(a, (v1, v2, v1 + v2))]) rows g1 ND HD' HS ltac:(discriminate)) as (es & rs & g' & ER & F1 & F2 & F3). rewrite ER.
      exists ((a, (v1, v2, v1 + v2)) :: es), rs, g'. rewrite <- app_assoc. split; [reflexivity|]. split; [constructor; assumption|]. split; [discriminate|exact F3].
Qed.

Lemma shape2_value : forall n m (u : plane), shape2 n m u -> (0 < n)%nat -> (0 < m)%nat -> exists x, In x (concat u).
Proof. intros n m u HS Hn Hm. rewrite (concat_nodes n m u HS). exists (at2 u (0, 0, 0)%nat). apply in_map, nodes_of_In. unfold on_grid. lia. Qed.

Lemma Forall2_nth_in : forall A B (P : A -> B -> Prop) l m y, List.Forall2 P l m -> In y m -> exists x, In x l /\ P x y.
Proof. intros A B P l m y H. exact (Forall2_In_r A B P l m H y). Qed.

Lemma row_keys : forall angles fs, List.Forall2 row_ok angles fs -> map fst fs = angles.
Proof. intros angles fs H. induction H as [|a f angles fs (E & _) H IH]; [reflexivity|]. cbn. rewrite E, IH. reflexivity. Qed.

Lemma study_ok : forall angles n (plot : bool) g, NoDup angles -> (if plot then (2 <= length angles)%nat else (1 <= length angles)%nat) ->
  exists es v rs g', anisotropy_study gauss quad base angles n plot g = (Ok (es, v, rs), g')
  /\ List.Forall2 (result_ok n) angles es
  /\ (plot = true -> List.Forall2 (fun a r => fst r = a /\ drawn_with gauss quad (with_angle a base) (snd r)) angles rs
      /\ (forall r x, In r rs -> In x (values_of (snd r)) -> - v <= x <= v))
  /\ (plot = true -> exists r x, In r rs /\ In x (values_of (snd r)) /\ Rabs x = v)
  /\ (plot = false -> rs = []).
Proof.
  intros angles n plot g HN HL. unfold anisotropy_study. destruct (angle_fields_ok angles g) as (fs & g1 & EF & FF). rewrite EF.
  assert (HNE : exists f, In f fs /\ row_ok (fst f) f).
  { destruct FF as [|a f angles' fs' HR FF]; [destruct plot; cbn in HL; lia|]. exists f. split; [left; reflexivity|]. pose proof HR as (E & _). rewrite E. exact HR. }
  destruct HNE as (f & Hf & (_ & _ & S1 & S2)).
  assert (P1 : (0 < 2 ^ lc_e1 base)%nat) by (pose proof (Nat.pow_nonzero 2 (lc_e1 base)); lia). assert (P2 : (0 < 2 ^ lc_e2 base)%nat) by (pose proof (Nat.pow_nonzero 2 (lc_e2 base)); lia).
  destruct (colour_limit_ok fs f Hf (shape2_value _ _ _ S1 P1 P2) (shape2_value _ _ _ S2 P1 P2)) as (v & EV). rewrite EV. destruct (colour_limit_spec fs v EV) as (CV & CA).
  destruct (angle_results_ok n plot (length angles =? 1)%nat fs angles [] [] g1 HN) as (es & rs & g' & ER & R1 & R2 & R3).
  { intros a _ []. }
  { intros ->. apply Nat.eqb_neq. lia. }
  { intros _ a Ha. rewrite (row_keys angles fs FF). exact Ha. }
  rewrite ER. cbn [bind fst snd app]. exists es, v, rs, g'. split; [reflexivity|]. split; [exact R1|].
  assert (KF : map fst fs = angles) by (apply row_keys; exact FF).
  assert (RS : plot = true -> rs = fs).
  { intros HPl. destruct (R2 HPl) as [MK IN].
    assert (HNf : NoDup (map fst fs)) by (rewrite KF; exact HN). rewrite <- KF in MK. clear -MK IN HNf. revert rs MK IN. induction fs as [|f fs IH]; intros [|r rs] MK IN; try discriminate; [reflexivity|].
    cbn [map] in MK. injection MK as E1 E2. cbn [map] in HNf. inversion HNf as [|? ? H1 H2]; subst.
    assert (ER : r = f). { destruct (IN r (or_introl eq_refl)) as [I|I]; [congruence|]. exfalso. apply H1. rewrite <- E1. apply in_map. exact I. }
    subst r. f_equal. apply IH; [exact H2|exact E2|]. intros x Hx. destruct (IN x (or_intror Hx)) as [I|I]; [|exact I]. subst x. exfalso. apply H1. rewrite <- E2. apply in_map. exact Hx. }
  split; [|split; [|exact R3]].
  - intros HPl. rewrite (RS HPl). split.
    + clear -FF. induction FF as [|a f angles fs (E & D & _) FF IH]; constructor; [split; assumption|exact IH].
    + intros r x Hr Hx. pose proof (CV r x Hr Hx) as B. apply Rabs_le_between in B. exact B.
  - intros HPl. rewrite (RS HPl). exact CA.
Qed.

Lemma study_single : forall a n g, exists g', anisotropy_study gauss quad base [a] n true g = (Err TypeError, g').
Proof.
  intros a n g. unfold anisotropy_study. destruct (angle_fields_ok [a] g) as (fs & g1 & EF & FF). rewrite EF. inversion FF as [|? f ? fs' HR FN]; subst. inversion FN; subst. pose proof HR as (E & _ & S1 & S2).
  assert (P1 : (0 < 2 ^ lc_e1 base)%nat) by (pose proof (Nat.pow_nonzero 2 (lc_e1 base)); lia). assert (P2 : (0 < 2 ^ lc_e2 base)%nat) by (pose proof (Nat.pow_nonzero 2 (lc_e2 base)); lia).
  destruct (colour_limit_ok [f] f (or_introl eq_refl) (shape2_value _ _ _ S1 P1 P2) (shape2_value _ _ _ S2 P1 P2)) as (v & EV). rewrite EV. cbn [length Nat.eqb angle_results].
  destruct (angle_generator a g1) as (w & HC & _ & HA). destruct (HA n) as ([v1 v2] & g2 & EA). rewrite HC, EA.
  destruct (stored_get [f] [] a) as (u & EU & _); [left; left; exact E|]. unfold generated_fields. rewrite EU. eexists. reflexivity.
Qed.

Lemma study_none : forall n plot g, anisotropy_study gauss quad base [] n plot g = (Err ValueError, g).
Proof. reflexivity. Qed.

End Angles.
