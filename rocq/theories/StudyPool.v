(** Lemmas about the schedules of the studies of the low-frequency generator: sorting,
    process pools, figures. *)

From Coq Require Import String Reals List ZArith Bool Lia Lra Permutation Sorted.
From Coquelicot Require Import Coquelicot.
From Verif Require Import Prelude GenModel GenSpec GenProofs DftModel DftSpec DftProofs DftCov LowModel LowSpec LowProofs LowFourier LowMore LowSpectrum LowCov LowApi EstSpec EstProofs StudyModel StudyProofs.
Import ListNotations.
Open Scope R_scope.

(** ** Stable sort *)

Section Sort.
Context {A : Type}.
Variable key : A -> R.
Let le (a b : A) : bool := Rleb (key a) (key b).

Lemma insert_perm : forall (le : A -> A -> bool) x l, Permutation (insert_by le x l) (x :: l).
Proof.
  intros le0 x l. induction l as [|y l IH]; [reflexivity|]. cbn [insert_by]. destruct (le0 x y); [reflexivity|]. rewrite IH. apply perm_swap.
Qed.

Lemma sort_perm : forall (le : A -> A -> bool) l, Permutation (sort_by le l) l.
Proof.
  intros le0 l. induction l as [|x l IH]; [reflexivity|]. unfold sort_by in *. cbn [fold_right]. rewrite insert_perm. constructor. exact IH.
Qed.

Lemma insert_sorted : forall x l, StronglySorted (fun a b => key a <= key b) l -> StronglySorted (fun a b => key a <= key b) (insert_by le x l).
Proof.
  intros x l H. induction H as [|y l H IH HF]; [repeat constructor|]. cbn [insert_by]. destruct (le x y) eqn:E.
  - apply Rleb_true in E. constructor; [constructor; assumption|]. constructor; [exact E|]. apply List.Forall_forall. intros z Hz. rewrite List.Forall_forall in HF. pose proof (HF z Hz). lra.
  - apply Rleb_false in E. constructor; [exact IH|]. apply List.Forall_forall. intros z Hz. apply (Permutation_in _ (insert_perm le x l)) in Hz. destruct Hz as [<-|Hz]; [lra|].
    rewrite List.Forall_forall in HF. exact (HF z Hz).
Qed.

Lemma sort_sorted : forall l, StronglySorted (fun a b => key a <= key b) (sort_by le l).
Proof. intros l. induction l as [|x l IH]; [constructor|]. unfold sort_by in *. cbn [fold_right]. apply insert_sorted. exact IH. Qed.

Lemma sorted_unique : forall l l', StronglySorted (fun a b => key a <= key b) l -> StronglySorted (fun a b => key a <= key b) l' ->
  Permutation l l' -> NoDup (map key l) -> l = l'.
Proof.
  induction l as [|x l IH]; intros l' S S' HP HN.
  - apply Permutation_nil in HP. congruence.
  - destruct l' as [|y l']; [symmetry in HP; apply Permutation_nil in HP; discriminate|].
    assert (E : x = y).
    { assert (IY : In y (x :: l)) by (apply (Permutation_in _ (Permutation_sym HP)); left; reflexivity).
      assert (IX : In x (y :: l')) by (apply (Permutation_in _ HP); left; reflexivity).
      destruct IX as [IX|IX]; [congruence|]. destruct IY as [IY|IY]; [congruence|]. exfalso.
      inversion S as [|? ? _ F1]; subst. inversion S' as [|? ? _ F2]; subst. rewrite List.Forall_forall in F1, F2.
      pose proof (F1 y IY). pose proof (F2 x IX). assert (EK : key x = key y) by lra. cbn [map] in HN. inversion HN as [|? ? H1 H2]; subst. apply H1. rewrite EK. apply in_map. exact IY. }
    subst y. f_equal. apply IH.
    + inversion S; assumption.
    + inversion S'; assumption.
    + apply Permutation_cons_inv in HP. exact HP.
    + inversion HN; assumption.
Qed.

Lemma sort_unique : forall l l', Permutation l l' -> NoDup (map key l) -> sort_by le l = sort_by le l'.
Proof.
  intros l l' HP HN. apply sorted_unique; try apply sort_sorted.
  - rewrite !sort_perm. exact HP.
  - apply (Permutation_NoDup (l := map key l)); [|exact HN]. apply Permutation_map. symmetry. apply sort_perm.
Qed.

End Sort.

(** ** Results of a pool *)

Lemma oks_perm : forall A (l l' : list (res A)), Permutation l l' -> Permutation (oks l) (oks l').
Proof.
  intros A l l' H. induction H as [| r l l' H IH | r r' l | l l' l'' H1 IH1 H2 IH2].
  - reflexivity.
  - destruct r; cbn [oks]; [apply perm_skip|]; exact IH.
  - destruct r, r'; cbn [oks]; try apply Permutation_refl. apply perm_swap.
  - exact (perm_trans IH1 IH2).
Qed.

Lemma pool_all : forall G K A (task : K -> G -> res A * G) (P : K -> res A -> Prop) l st,
  (forall k g, In k (map fst l) -> P k (fst (task k g))) -> List.Forall2 P (map fst l) (pool task st l).
Proof.
  intros G K A task P l. induction l as [|[k p] l IH]; intros st H; [constructor|]. cbn [pool map fst]. pose proof (H k (st p)) as HK. destruct (task k (st p)) as [r g1]. constructor.
  - apply HK. left. reflexivity.
  - apply IH. intros k' g Hk. apply H. right. exact Hk.
Qed.

Lemma pool_fresh : forall G K A (task : K -> G -> res A * G) g l st, NoDup (map snd l) -> (forall p, In p (map snd l) -> st p = g) ->
  pool task st l = map (fun kp => fst (task (fst kp) g)) l.
Proof.
  intros G K A task g l. induction l as [|[k p] l IH]; intros st HN H; [reflexivity|]. cbn [pool map fst snd] in *.
  rewrite (H p) by (left; reflexivity). destruct (task k g) as [r g1]. cbn [fst]. f_equal. inversion HN as [|? ? N1 N2]; subst. apply IH; [exact N2|].
  intros q Hq. destruct (Nat.eqb_spec q p) as [->|_]; [contradiction|]. apply H. right. exact Hq.
Qed.

Lemma combine_fst : forall A B (l : list A) (m : list B), length m = length l -> map fst (combine l m) = l.
Proof. intros A B l. induction l as [|x l IH]; intros [|y m] H; try discriminate; [reflexivity|]. cbn. f_equal. apply IH. cbn in H. lia. Qed.
Lemma combine_snd : forall A B (l : list A) (m : list B), length m = length l -> map snd (combine l m) = m.
Proof. intros A B l. induction l as [|x l IH]; intros [|y m] H; try discriminate; [reflexivity|]. cbn. f_equal. apply IH. cbn in H. lia. Qed.

(** ** Mesh study *)

Lemma deg45 : deg2rad 45 = PI / 4.
Proof. unfold deg2rad. field. Qed.

Lemma mesh_positive : forall e, positive_lengths (with_exponent e mesh_base).
Proof. intros e. unfold positive_lengths. cbn. lra. Qed.

Lemma mesh_fails : forall G (gauss : G -> R * G) quad e g, (1 <= e)%nat -> exists x, fst (run_single_mesh gauss quad e mesh_base 5 g) = Err x.
Proof.
  intros G gauss quad e g He. destruct (run_single_fails G gauss quad (with_exponent e mesh_base) 5 g (mesh_positive e)) as (x & HX); try (cbn; lia).
  - rewrite (square_plain (with_exponent e mesh_base) 4 e) by (reflexivity || exact He). lra.
  - exists x. unfold run_single_mesh. destruct (run_single gauss quad (with_exponent e mesh_base) 5 g) as [r g1]. cbn [fst] in *. rewrite HX. reflexivity.
Qed.

Lemma oks_none : forall A (l : list (res A)), (forall r, In r l -> exists e, r = Err e) -> oks l = [].
Proof.
  intros A l. induction l as [|r l IH]; intros H; [reflexivity|]. destruct (H r) as (e & ->); [left; reflexivity|]. cbn. apply IH. intros r' Hr. apply H. right. exact Hr.
Qed.

Lemma Forall2_In_r : forall A B (P : A -> B -> Prop) l m, List.Forall2 P l m -> forall y, In y m -> exists x, In x l /\ P x y.
Proof.
  intros A B P l m H. induction H as [|x y l m H HF IH]; intros z [].
  - subst z. exists x. split; [left; reflexivity|exact H].
  - destruct (IH z H0) as (x' & I & Q). exists x'. split; [right; exact I|exact Q].
Qed.

Lemma mesh_nothing : forall G (gauss : G -> R * G) quad low high g ps done, (1 <= low)%nat -> mesh_execution gauss quad low high g ps done ->
  mesh_figure (exponents low high) done = Ok None.
Proof.
  intros G gauss quad low high g ps done Hl (HL & HP). unfold mesh_figure.
  assert (E : oks done = []).
  { apply Permutation_nil. apply oks_perm in HP. rewrite (oks_none _ (pool _ _ _)) in HP; [symmetry; exact HP|]. intros r Hr.
    pose proof (pool_all G nat _ (fun e => run_single_mesh gauss quad e mesh_base 5) (fun e r => In e (exponents low high) -> exists x, r = Err x) (combine (exponents low high) ps) (fun _ => g)) as HA.
    destruct (Forall2_In_r _ _ _ _ _ (HA ltac:(intros k g0 _ Hk; unfold exponents in Hk; apply in_seq in Hk; apply mesh_fails; lia)) r Hr) as (e & I & Q). rewrite combine_fst in I by exact HL. exact (Q I). }
  rewrite E. reflexivity.
Qed.

Lemma mesh_point : forall G (gauss : G -> R * G) quad g, / 10^16 <= quad (low_shape 15000 500) -> is_ok (fst (run_single_mesh gauss quad 0 mesh_base 5 g)).
Proof.
  intros G gauss quad g HQ. unfold run_single_mesh, run_single. set (cfg := with_exponent 0 mesh_base). assert (HP : positive_lengths cfg) by apply mesh_positive.
  destruct (low_construct_ok quad cfg HP HQ) as (w & HC). rewrite HC. destruct (low_constructed quad cfg w HC HP) as (EC & F & _).
  set (gr := lw_grid w). assert (NP : (0 < lg_cN1 gr)%nat) by (pose proof (gf_21 _ _ F); unfold gr; lia).
  assert (HA : forall n w0 (s1 s2 : plane) g0, lw_cfg w0 = lw_cfg w -> lw_c w0 = lw_c w -> lw_grid w0 = lw_grid w -> shape2 (lg_cN1 gr) (lg_cN2 gr) s1 -> shape2 (lg_cN1 gr) (lg_cN2 gr) s2 ->
    is_ok (fst (accumulate gauss n w0 (s1, s2) g0))).
  { induction n as [|n IH]; intros w0 s1 s2 g0 E1 E2 E3 S1 S2; [eexists; reflexivity|]. cbn [accumulate].
    destruct (realisation G gauss cfg w w0 g0 HP EC F E1 E2 E3) as (u1 & u2 & EG & T1 & T2 & _). rewrite EG. cbn [lw_u fst snd].
    rewrite (gf_N1 _ _ F), (gf_N2 _ _ F) in T1, T2. cbn in T1, T2.
    destruct (iadd2_broadcast _ _ s1 u1 S1 T1 NP) as (a1 & A1). destruct (iadd2_broadcast _ _ s2 u2 S2 T2 NP) as (a2 & A2). rewrite A1, A2.
    assert (SH : forall a b s, shape2 (lg_cN1 gr) (lg_cN2 gr) a -> iadd2 a b = Ok s -> shape2 (lg_cN1 gr) (lg_cN2 gr) s).
    { intros a b s Ha E. unfold iadd2 in E. rewrite (shape2_hd _ _ a Ha NP) in E. destruct Ha as [La _]. rewrite La in E.
      destruct (((length b =? lg_cN1 gr) || (length b =? 1)) && ((length (hd [] b) =? lg_cN2 gr) || (length (hd [] b) =? 1)))%nat%bool; [|discriminate].
      injection E as <-. apply tabulate2_shape. }
    apply IH; try reflexivity; [exact (SH _ _ _ S1 A1)|exact (SH _ _ _ S2 A2)]. }
  destruct (HA 5%nat w (zeros2 (lg_cN1 gr) (lg_cN2 gr)) (zeros2 (lg_cN1 gr) (lg_cN2 gr)) g eq_refl eq_refl eq_refl (tabulate2_shape _ _ _) (tabulate2_shape _ _ _)) as ([t1 t2] & E).
  destruct (accumulate gauss 5 w (zeros2 (lg_cN1 gr) (lg_cN2 gr), zeros2 (lg_cN1 gr) (lg_cN2 gr)) g) as [r g1]. cbn [fst] in E. subst r. eexists. reflexivity.
Qed.

Lemma mesh_raises : forall G (gauss : G -> R * G) quad high g ps done, (1 <= high)%nat -> / 10^16 <= quad (low_shape 15000 500) ->
  mesh_execution gauss quad 0 high g ps done -> mesh_figure (exponents 0 high) done = Err ValueError.
Proof.
  intros G gauss quad high g ps done Hh HQ (HL & HP). unfold mesh_figure.
  assert (L1 : length (oks done) = 1%nat).
  { rewrite (Permutation_length (oks_perm _ _ _ HP)). unfold exponents in *. rewrite seq_length in HL. replace (high + 1 - 0)%nat with (S high) in * by lia. destruct ps as [|p ps]; [discriminate|].
    cbn [seq combine pool]. destruct (mesh_point G gauss quad g HQ) as (r & E). destruct (run_single_mesh gauss quad 0 mesh_base 5 g) as [r' g1]. cbn [fst] in E. subst r'. cbn [oks length]. f_equal.
    rewrite oks_none; [reflexivity|]. intros r' Hr.
    pose proof (pool_all G nat _ (fun e => run_single_mesh gauss quad e mesh_base 5) (fun e r => In e (seq 1 high) -> exists x, r = Err x) (combine (seq 1 high) ps) (fun q => if (q =? p)%nat then g1 else g)) as HA.
    destruct (Forall2_In_r _ _ _ _ _ (HA ltac:(intros k g0 _ Hk; apply in_seq in Hk; apply mesh_fails; lia)) r' Hr) as (e & I & Q).
    rewrite combine_fst in I by (rewrite seq_length; cbn in HL; lia). exact (Q I). }
  rewrite <- (Permutation_length (sort_perm (fun a b => (fst a <=? fst b)%nat) (oks done))) in L1. destruct (sort_by _ (oks done)) as [|r rs]; [discriminate|].
  assert (LE : length (exponents 0 high) = S high) by (unfold exponents; rewrite seq_length; lia). rewrite LE, L1. destruct (Nat.eqb_spec (S high) 1); [lia|reflexivity].
Qed.

Lemma mesh_square : forall G (gauss : G -> R * G) quad cfg f e n g, 0 < lc_L cfg -> 0 < f -> lc_f1 cfg = f -> lc_f2 cfg = f -> / 10^16 <= quad (low_shape (lc_L cfg) (lc_zi cfg)) ->
  (1 <= e)%nat -> (1 <= n)%nat ->
  (5 <= f <-> exists s, fst (run_single_mesh gauss quad e cfg n g) = Ok (e, s)) /\ (f < 5 <-> fst (run_single_mesh gauss quad e cfg n g) = Err ValueError).
Proof.
  intros G gauss quad cfg f e n g HL Hf F1 F2 HQ He Hn. destruct (run_single_iff G gauss quad (with_exponent e cfg) n g) as (I1 & I2); try assumption.
  { unfold positive_lengths. cbn. rewrite F1, F2. tauto. }
  pose proof (square_plain (with_exponent e cfg) f e F1 F2 eq_refl eq_refl He) as SQ. unfold run_single_mesh.
  destruct (run_single gauss quad (with_exponent e cfg) n g) as [r g1]. cbn [fst] in *.
  destruct (Rle_lt_dec 5 f) as [H|H].
  - destruct (I1 (proj2 SQ H)) as (s & ->). cbn. split; split; intros; try lra; try discriminate; exists s; reflexivity.
  - assert (ND : ~ plain_domain (with_exponent e cfg)) by (intros X; apply (proj1 SQ) in X; lra). rewrite (I2 ND). cbn. split; split; intros HX; try lra; try reflexivity. destruct HX as (s & HX). discriminate.
Qed.

(** ** Domain study *)

Section Domain.
Context {G : Type}.
Variables (gauss : G -> R * G) (quad : (R -> R) -> R).
Hypothesis HQ : / 10^16 <= quad (low_shape 15000 500).

Lemma domain_task : forall f g, 0 < f ->
  (5 <= f -> exists s, fst (run_single_domain gauss quad f domain_base 5 g) = Ok (f, s, 15000 * f))
  /\ (f < 5 -> fst (run_single_domain gauss quad f domain_base 5 g) = Err ValueError).
Proof.
  intros f g Hf. destruct (run_single_iff G gauss quad (with_factor f domain_base) 5 g) as (I1 & I2); try (cbn; lia); try exact HQ.
  { unfold positive_lengths. cbn. lra. }
  pose proof (square_plain (with_factor f domain_base) f 9 eq_refl eq_refl eq_refl eq_refl ltac:(lia)) as SQ. unfold run_single_domain.
  destruct (run_single gauss quad (with_factor f domain_base) 5 g) as [r g1]. cbn [fst] in *. split; intros H.
  - destruct (I1 (proj2 SQ H)) as (s & ->). exists s. reflexivity.
  - rewrite I2; [reflexivity|]. intros X. apply (proj1 SQ) in X. lra.
Qed.

Lemma oks_filter : forall fs rs, List.Forall2 (fun f r => (5 <= f -> exists s : stats, r = Ok (f, s, 15000 * f)) /\ (f < 5 -> r = Err ValueError)) fs rs ->
  map (fun r => fst (fst r)) (oks rs) = filter (Rleb 5) fs /\ List.Forall (fun r => snd r = 15000 * fst (fst r)) (oks rs).
Proof.
  intros fs rs H. induction H as [|f r fs rs [H1 H2] HF [IH1 IH2]]; [split; constructor|]. cbn [filter]. destruct (Rleb 5 f) eqn:E.
  - apply Rleb_true in E. destruct (H1 E) as (s & ->). cbn [oks map fst]. rewrite IH1. split; [reflexivity|]. constructor; [reflexivity|exact IH2].
  - apply Rleb_false in E. rewrite (H2 E). cbn [oks]. split; assumption.
Qed.

Lemma domain_oks : forall factors g ps done, List.Forall (fun f => 0 < f) factors -> domain_execution gauss quad factors g ps done ->
  Permutation (map (fun r => fst (fst r)) (oks done)) (filter (Rleb 5) factors) /\ List.Forall (fun r => snd r = 15000 * fst (fst r)) (oks done).
Proof.
  intros factors g ps done HF (HL & HP). apply oks_perm in HP.
  pose proof (pool_all G R _ (fun f => run_single_domain gauss quad f domain_base 5) (fun f r => (5 <= f -> exists s : stats, r = Ok (f, s, 15000 * f)) /\ (f < 5 -> r = Err ValueError)) (combine factors ps) (fun _ => g)) as HA.
  rewrite combine_fst in HA by exact HL. rewrite List.Forall_forall in HF. specialize (HA ltac:(intros k g0 Hk; apply domain_task, HF, Hk)). apply oks_filter in HA. destruct HA as (A1 & A2). split.
  - rewrite <- A1. apply Permutation_map. exact HP.
  - apply List.Forall_forall. intros r Hr. apply (Permutation_in _ HP) in Hr. rewrite List.Forall_forall in A2. exact (A2 r Hr).
Qed.

End Domain.

Lemma map_fst_combine : forall X Y (xs : list X) (ys : list Y), length ys = length xs -> map fst (combine xs ys) = xs.
Proof. exact combine_fst. Qed.

Lemma domain_points : forall G (gauss : G -> R * G) quad factors g ps done, / 10^16 <= quad (low_shape 15000 500) ->
  List.Forall (fun f => 0 < f) factors -> domain_execution gauss quad factors g ps done ->
  (filter (Rleb 5) factors = [] -> domain_figure done = None)
  /\ (filter (Rleb 5) factors <> [] -> exists c1 c2 c3 c4 xs, domain_figure done = Some (c1, c2, c3, c4)
      /\ map fst c1 = xs /\ map fst c2 = xs /\ map fst c3 = xs /\ map fst c4 = xs
      /\ StronglySorted Rle xs /\ Permutation xs (map (fun f => 15 * f) (filter (Rleb 5) factors))).
Proof.
  intros G gauss quad factors g ps done HQ HF HE. destruct (domain_oks gauss quad HQ factors g ps done HF HE) as (P & FA).
  unfold domain_figure. pose proof (sort_perm (fun a b : R * stats * R => Rleb (fst (fst a)) (fst (fst b))) (oks done)) as SP.
  pose proof (sort_sorted (fun a : R * stats * R => fst (fst a)) (oks done)) as SS. cbv beta in SS.
  set (rs := sort_by _ (oks done)) in *. split; intros HN.
  - rewrite HN in P. symmetry in P. apply Permutation_nil in P. apply map_eq_nil in P. rewrite P in SP. symmetry in SP. apply Permutation_nil in SP. rewrite SP. reflexivity.
  - destruct rs as [|r0 rt] eqn:ER.
    { exfalso. apply HN. apply Permutation_nil in SP. rewrite SP in P. cbn in P. apply Permutation_nil in P. exact P. }
    rewrite <- ER in *. assert (SZ : List.Forall (fun r => snd r = 15000 * fst (fst r)) rs).
    { apply List.Forall_forall. intros r Hr. rewrite List.Forall_forall in FA. apply FA. apply (Permutation_in _ SP). exact Hr. }
    assert (EX : map (fun r : R * stats * R => snd r / 1000) rs = map (fun r => 15 * fst (fst r)) rs).
    { apply map_ext_in. intros r Hr. rewrite List.Forall_forall in SZ. rewrite (SZ r Hr). field. }
    unfold curves_of. do 4 eexists. exists (map (fun r : R * stats * R => snd r / 1000) rs). split; [reflexivity|].
    do 4 (split; [apply combine_fst; rewrite !map_length; reflexivity|]). rewrite EX. split.
    + clear -SS. induction SS as [|r l S IH HA]; [constructor|]. cbn [map]. constructor; [exact IH|]. apply List.Forall_forall. intros z Hz. apply in_map_iff in Hz. destruct Hz as (r' & <- & Hr).
      rewrite List.Forall_forall in HA. pose proof (HA r' Hr). lra.
    + rewrite <- (map_map (fun r : R * stats * R => fst (fst r)) (fun f => 15 * f)). apply Permutation_map. etransitivity; [apply Permutation_map; exact SP|exact P].
Qed.

(** The order of completion does not matter. *)
Lemma domain_order : forall G (gauss : G -> R * G) quad factors g ps done done', / 10^16 <= quad (low_shape 15000 500) ->
  List.Forall (fun f => 0 < f) factors -> NoDup factors -> domain_execution gauss quad factors g ps done -> domain_execution gauss quad factors g ps done' ->
  domain_figure done = domain_figure done'.
Proof.
  intros G gauss quad factors g ps done done' HQ HF HN HE HE'. unfold domain_figure.
  rewrite (sort_unique (fun a : R * stats * R => fst (fst a)) (oks done) (oks done')); [reflexivity| |].
  - apply oks_perm. destruct HE as (_ & P). destruct HE' as (_ & P'). rewrite P. symmetry. exact P'.
  - destruct (domain_oks gauss quad HQ factors g ps done HF HE) as (P & _). apply (Permutation_NoDup (Permutation_sym P)). apply NoDup_filter. exact HN.
Qed.

(** Points of a study whose tasks run in different processes. *)
Lemma domain_fresh : forall G (gauss : G -> R * G) quad factors g ps done, NoDup ps -> domain_execution gauss quad factors g ps done ->
  Permutation (oks done) (oks (map (fun f => fst (run_single_domain gauss quad f domain_base 5 g)) factors)).
Proof.
  intros G gauss quad factors g ps done HN (HL & HP). apply oks_perm in HP. rewrite HP. rewrite (pool_fresh G R _ _ g).
  - rewrite <- (map_map fst (fun f => fst (run_single_domain gauss quad f domain_base 5 g))). rewrite combine_fst by exact HL. reflexivity.
  - rewrite combine_snd by exact HL. exact HN.
  - reflexivity.
Qed.
