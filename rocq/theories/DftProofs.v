(** Sums over grids, orthogonality of the modes, and the transforms. *)

From Coq Require Import String Reals List ZArith Lia Lra Permutation Bool.
From Coquelicot Require Import Complex.
From Verif Require Import Prelude RdtModel GenModel DftModel DftSpec.
Import ListNotations.
Open Scope R_scope.

(** ** Complex numbers *)

Lemma C_eq : forall a b : C, fst a = fst b -> snd a = snd b -> a = b.
Proof. intros [a1 a2] [b1 b2] H1 H2. cbn [fst snd] in *. subst. reflexivity. Qed.

Ltac ceq := apply C_eq; unfold Cmult, Cplus, Copp, Cminus, Cconj, RtoC, Ci, Re, Im; cbn [fst snd]; try ring.

Lemma Cconj_plus : forall a b, Cconj (Cplus a b) = Cplus (Cconj a) (Cconj b).
Proof. intros; ceq. Qed.
Lemma Cconj_mult : forall a b, Cconj (Cmult a b) = Cmult (Cconj a) (Cconj b).
Proof. intros; ceq. Qed.
Lemma Cconj_conj : forall a, Cconj (Cconj a) = a.
Proof. intros; ceq. Qed.
Lemma Cconj_R : forall r, Cconj (RtoC r) = RtoC r.
Proof. intros; ceq. Qed.
Lemma Re_half : forall a, RtoC (2 * Re a) = Cplus a (Cconj a).
Proof. intros; ceq. Qed.
Lemma Cmult_RtoC_fst : forall r a, fst (Cmult (RtoC r) a) = r * fst a.
Proof. intros. unfold Cmult, RtoC; cbn [fst snd]; ring. Qed.
Lemma Cmult_RtoC_snd : forall r a, snd (Cmult (RtoC r) a) = r * snd a.
Proof. intros. unfold Cmult, RtoC; cbn [fst snd]; ring. Qed.

Lemma cis_plus : forall s t, cis (s + t) = Cmult (cis s) (cis t).
Proof. intros. unfold cis. ceq. - apply cos_plus. - rewrite sin_plus. ring. Qed.
Lemma cis_0 : cis 0 = RtoC 1.
Proof. unfold cis. rewrite cos_0, sin_0. reflexivity. Qed.
Lemma cis_neg : forall t, cis (- t) = Cconj (cis t).
Proof. intros. unfold cis. ceq. - apply cos_neg. - apply sin_neg. Qed.
Lemma cis_inv : forall t, Cmult (cis t) (cis (- t)) = RtoC 1.
Proof. intros. rewrite <- cis_plus. replace (t + - t) with 0 by ring. apply cis_0. Qed.

Lemma cis_period_nat : forall n t, cis (t + 2 * INR n * PI) = cis t.
Proof. intros. unfold cis. rewrite cos_period, sin_period. reflexivity. Qed.

Lemma cis_period : forall (z : Z) t, cis (t + 2 * PI * IZR z) = cis t.
Proof.
  intros z t. destruct (Z_le_gt_dec 0 z) as [Hz|Hz].
  - rewrite <- (cis_period_nat (Z.to_nat z) t). f_equal. rewrite INR_IZR_INZ, Z2Nat.id by lia. ring.
  - rewrite <- (cis_period_nat (Z.to_nat (- z)) (t + 2 * PI * IZR z)). f_equal.
    rewrite INR_IZR_INZ, Z2Nat.id by lia. rewrite opp_IZR. ring.
Qed.

Lemma cis_turn : forall z, cis (2 * PI * IZR z) = RtoC 1.
Proof. intros z. replace (2 * PI * IZR z) with (0 + 2 * PI * IZR z) by ring. rewrite cis_period. apply cis_0. Qed.

(** ** Sums *)

Lemma csum_ext : forall A (l : list A) f g, (forall x, In x l -> f x = g x) -> csum l f = csum l g.
Proof.
  induction l as [|a l IH]; intros f g H; [reflexivity|]. cbn. rewrite (H a) by (left; reflexivity).
  f_equal. apply IH. intros x Hx. apply H. right. exact Hx.
Qed.

Lemma csum_plus : forall A (l : list A) f g, csum l (fun x => Cplus (f x) (g x)) = Cplus (csum l f) (csum l g).
Proof. induction l as [|a l IH]; intros f g; cbn [csum fold_right]; [ring|]. fold (csum l (fun x => Cplus (f x) (g x))). rewrite IH. unfold csum. ring. Qed.

Lemma csum_scal : forall A (l : list A) c f, csum l (fun x => Cmult c (f x)) = Cmult c (csum l f).
Proof. induction l as [|a l IH]; intros c f; cbn [csum fold_right]; [ring|]. fold (csum l (fun x => Cmult c (f x))). rewrite IH. unfold csum. ring. Qed.

Lemma csum_scal_r : forall A (l : list A) c f, csum l (fun x => Cmult (f x) c) = Cmult (csum l f) c.
Proof. intros. rewrite Cmult_comm, <- csum_scal. apply csum_ext. intros; ring. Qed.

Lemma csum_zero : forall A (l : list A), csum l (fun _ => RtoC 0) = RtoC 0.
Proof. induction l as [|a l IH]; cbn [csum fold_right]; [reflexivity|]. fold (csum l (fun _ : A => RtoC 0)). rewrite IH. ring. Qed.

Lemma csum_app : forall A (l m : list A) f, csum (l ++ m) f = Cplus (csum l f) (csum m f).
Proof. induction l as [|a l IH]; intros m f; [cbn [app]; change (csum [] f) with (RtoC 0); ring|]. cbn [csum fold_right app]. fold (csum (l ++ m) f). rewrite IH. unfold csum. ring. Qed.

Lemma csum_map : forall A B (h : A -> B) l f, csum (map h l) f = csum l (fun x => f (h x)).
Proof. induction l as [|a l IH]; intros f; cbn; [reflexivity|]. f_equal. apply IH. Qed.

Lemma csum_flat_map : forall A B (h : A -> list B) l f, csum (flat_map h l) f = csum l (fun x => csum (h x) f).
Proof. induction l as [|a l IH]; intros f; [reflexivity|]. cbn [flat_map]. rewrite csum_app, IH. reflexivity. Qed.

Lemma csum_swap : forall A B (l : list A) (m : list B) f,
  csum l (fun x => csum m (fun y => f x y)) = csum m (fun y => csum l (fun x => f x y)).
Proof.
  induction l as [|a l IH]; intros m f.
  - cbn. symmetry. apply csum_zero.
  - cbn. fold (csum l (fun x => csum m (fun y => f x y))). rewrite IH, <- csum_plus. reflexivity.
Qed.

Lemma csum_perm : forall A (l m : list A) f, Permutation l m -> csum l f = csum m f.
Proof.
  intros A l m f H. induction H as [|x l m H IH|x y l|l m n H1 IH1 H2 IH2].
  - reflexivity.
  - cbn. f_equal. exact IH.
  - cbn. ring.
  - congruence.
Qed.

Lemma csum_conj : forall A (l : list A) f, Cconj (csum l f) = csum l (fun x => Cconj (f x)).
Proof.
  induction l as [|a l IH]; intros f; cbn; [apply Cconj_R|]. rewrite Cconj_plus. f_equal. apply IH.
Qed.

Lemma csum_Re : forall A (l : list A) f, Re (csum l f) = Rsum (map (fun x => Re (f x)) l).
Proof. induction l as [|a l IH]; intros f; [reflexivity|]. cbn [csum fold_right map]. unfold Rsum; cbn [fold_right]. fold (Rsum (map (fun x => Re (f x)) l)). rewrite <- IH. reflexivity. Qed.

Lemma csum_Im : forall A (l : list A) f, Im (csum l f) = Rsum (map (fun x => Im (f x)) l).
Proof. induction l as [|a l IH]; intros f; [reflexivity|]. cbn [csum fold_right map]. unfold Rsum; cbn [fold_right]. fold (Rsum (map (fun x => Im (f x)) l)). rewrite <- IH. reflexivity. Qed.

Lemma csum_pick : forall A (l : list A) a f, NoDup l -> In a l -> (forall x, In x l -> x <> a -> f x = RtoC 0) -> csum l f = f a.
Proof.
  induction l as [|b l IH]; intros a f Hn Hi Hz; [destruct Hi|].
  apply NoDup_cons_iff in Hn. destruct Hn as [Hb Hn]. cbn [csum fold_right]. fold (csum l f).
  destruct Hi as [->|Hi].
  - rewrite (csum_ext _ l f (fun _ => RtoC 0)), csum_zero; [ring|].
    intros x Hx. apply Hz; [right; exact Hx|]. intros ->. contradiction.
  - rewrite (IH a f Hn Hi) by (intros x Hx Hne; apply Hz; [right; exact Hx|exact Hne]).
    rewrite (Hz b); [ring|left; reflexivity|intros ->; contradiction].
Qed.

(** ** Grids *)

Lemma grid_In : forall d x, In x (grid d) <-> on_grid d x.
Proof.
  intros [[nx ny] nz] [[p q] r]. cbv beta iota delta [grid on_grid]. rewrite in_prod_iff, in_prod_iff, !in_seq. lia.
Qed.

Lemma NoDup_list_prod : forall A B (l : list A) (m : list B), NoDup l -> NoDup m -> NoDup (list_prod l m).
Proof.
  induction l as [|a l IH]; intros m Hl Hm; [constructor|]. cbn [list_prod].
  apply NoDup_cons_iff in Hl. destruct Hl as [Ha Hl].
  assert (Happ : forall (u v : list (A * B)), NoDup u -> NoDup v -> (forall x, In x u -> In x v -> False) -> NoDup (u ++ v)).
  { induction u as [|c u IHu]; intros v Hu Hv Hd; [exact Hv|]. cbn. apply NoDup_cons_iff in Hu. destruct Hu as [Hc Hu].
    constructor.
    - rewrite in_app_iff. intros [H|H]; [contradiction|]. apply (Hd c); [left; reflexivity|exact H].
    - apply IHu; try assumption. intros x Hx. apply Hd. right. exact Hx. }
  apply Happ.
  - apply FinFun.Injective_map_NoDup; [intros x y Hxy; congruence|exact Hm].
  - apply IH; assumption.
  - intros [x y] Hx Hy. rewrite in_map_iff in Hx. destruct Hx as (b & Hb & _). apply in_prod_iff in Hy.
    assert (x = a) by congruence. subst. tauto.
Qed.

Lemma grid_NoDup : forall d, NoDup (grid d).
Proof. intros [[nx ny] nz]. unfold grid. repeat apply NoDup_list_prod; apply seq_NoDup. Qed.

Lemma nodes_of_In : forall d x, In x (nodes_of d) <-> on_grid d x.
Proof.
  intros [[nx ny] nz] [[p q] r]. unfold nodes_of, on_grid. rewrite in_flat_map. split.
  - intros (a & Ha & H). rewrite in_flat_map in H. destruct H as (b & Hb & H). rewrite in_map_iff in H.
    destruct H as (c & Hc & H). rewrite in_seq in *. assert (a = p /\ b = q /\ c = r) by (repeat split; congruence). lia.
  - intros H. exists p. rewrite in_seq, in_flat_map. split; [lia|]. exists q. rewrite in_seq, in_map_iff. split; [lia|].
    exists r. rewrite in_seq. split; [reflexivity|lia].
Qed.

Lemma csum_grid : forall nx ny nz f,
  csum (grid (nx, ny, nz)) f = csum (seq 0 nx) (fun p => csum (seq 0 ny) (fun q => csum (seq 0 nz) (fun r => f (p, q, r)))).
Proof.
  assert (Hp : forall A B (l : list A) (m : list B) f, csum (list_prod l m) f = csum l (fun x => csum m (fun y => f (x, y)))).
  { induction l as [|a l IH]; intros m f; [reflexivity|]. cbn [list_prod]. rewrite csum_app, IH, csum_map. reflexivity. }
  intros. cbv beta iota delta [grid]. rewrite Hp, Hp. reflexivity.
Qed.

Lemma csum_nodes_of : forall d f, csum (nodes_of d) f = csum (grid d) f.
Proof.
  intros [[nx ny] nz] f. rewrite csum_grid. unfold nodes_of. rewrite csum_flat_map. apply csum_ext. intros p _.
  rewrite csum_flat_map. apply csum_ext. intros q _. apply csum_map.
Qed.

Lemma angle_theta : forall d k x, angle d k x = theta d k x.
Proof.
  intros [[nx ny] nz] [[a b] c] [[p q] r]. unfold angle, theta. rewrite !mult_INR. unfold Rdiv. ring.
Qed.

Lemma Rsum_csum : forall A (l : list A) f, Rsum (map f l) = Re (csum l (fun x => RtoC (f x))).
Proof. intros. rewrite csum_Re. reflexivity. Qed.

Lemma fourier_fftn : forall d u k, fourier d u k = fftn d (fun x => RtoC (u x)) k.
Proof.
  intros d u k. unfold fourier, fftn. rewrite <- csum_nodes_of. apply C_eq; cbn [fst snd].
  - change (fst ?a) with (Re a). rewrite csum_Re. f_equal. apply map_ext. intros x. rewrite angle_theta.
    unfold Re. rewrite Cmult_RtoC_fst, cis_neg. reflexivity.
  - change (snd ?a) with (Im a). rewrite csum_Im.
    assert (Hneg : forall l : list R, - Rsum l = Rsum (map Ropp l)).
    { unfold Rsum. induction l as [|a l IH]; cbn; [ring|]. rewrite Ropp_plus_distr, IH. reflexivity. }
    rewrite Hneg, map_map. f_equal. apply map_ext. intros x. rewrite angle_theta.
    unfold Im. rewrite Cmult_RtoC_snd, cis_neg. unfold cis, Cconj. cbn [snd]. ring.
Qed.

Lemma full_sum_csum : forall d h x, full_sum d h x = csum (grid d) (fun k => Cmult (h k) (cis (theta d k x))).
Proof.
  intros d h x. rewrite <- csum_nodes_of. unfold full_sum, csum. induction (nodes_of d) as [|a l IH]; [reflexivity|].
  cbn [fold_right]. rewrite IH, angle_theta. reflexivity.
Qed.

(** ** Sums of roots of unity *)

Lemma cis_not_1 : forall t, 0 < t < 2 * PI -> cis t <> RtoC 1.
Proof.
  intros t Ht H. assert (Hc : cos t = 1) by (unfold cis, RtoC in H; congruence).
  assert (Hs : 0 < sin (t / 2)) by (apply sin_gt_0; lra).
  replace t with (2 * (t / 2)) in Hc by lra. rewrite cos_2a_sin in Hc. nra.
Qed.

Lemma geometric : forall n t, Cmult (Cminus (cis t) (RtoC 1)) (csum (seq 0 n) (fun p => cis (INR p * t))) = Cminus (cis (INR n * t)) (RtoC 1).
Proof.
  induction n as [|n IH]; intros t.
  - cbn. replace (0 * t) with 0 by ring. rewrite cis_0. ring.
  - rewrite seq_S, csum_app, Cmult_plus_distr_l, IH. cbn [csum fold_right].
    rewrite Nat.add_0_l, S_INR. replace ((INR n + 1) * t) with (t + INR n * t) by ring. rewrite cis_plus. ring.
Qed.

Lemma roots_sum : forall n (m : Z), (0 < n)%nat ->
  csum (seq 0 n) (fun p => cis (INR p * (2 * PI * IZR m / INR n))) = if (m mod Z.of_nat n =? 0)%Z then RtoC (INR n) else RtoC 0.
Proof.
  intros n m Hn. assert (HN : 0 < INR n) by (apply lt_0_INR; exact Hn). pose proof PI_RGT_0 as HPI.
  assert (Hdm := Z_div_mod_eq_full m (Z.of_nat n)). assert (Hb := Z.mod_pos_bound m (Z.of_nat n) ltac:(lia)).
  set (q := (m / Z.of_nat n)%Z) in *. set (r := (m mod Z.of_nat n)%Z) in *.
  assert (Hred : forall p, cis (INR p * (2 * PI * IZR m / INR n)) = cis (INR p * (2 * PI * IZR r / INR n))).
  { intros p. rewrite <- (cis_period (Z.of_nat p * q) (INR p * (2 * PI * IZR r / INR n))). f_equal.
    rewrite Hdm, plus_IZR, !mult_IZR, <- !INR_IZR_INZ. field. lra. }
  rewrite (csum_ext _ _ _ (fun p => cis (INR p * (2 * PI * IZR r / INR n)))) by (intros; apply Hred).
  destruct (Z.eqb_spec r 0) as [Hr|Hr].
  - rewrite Hr. clear -Hn. destruct n as [|n]; [lia|].
    assert (Hz : forall k, cis (INR k * (2 * PI * 0 / INR (S n))) = RtoC 1).
    { intros k. rewrite <- cis_0. f_equal. unfold Rdiv. ring. }
    assert (Hone : forall k, csum (seq 0 k) (fun p => cis (INR p * (2 * PI * 0 / INR (S n)))) = RtoC (INR k)).
    { induction k as [|k IHk]; [reflexivity|]. rewrite seq_S, csum_app, IHk. cbn [csum fold_right].
      rewrite Hz, (S_INR k). ceq. }
    apply Hone.
  - set (t := 2 * PI * IZR r / INR n).
    assert (Hr1 : 1 <= IZR r) by (apply IZR_le; lia).
    assert (Hr2 : IZR r < INR n) by (rewrite INR_IZR_INZ; apply IZR_lt; lia).
    assert (Ht : 0 < t < 2 * PI).
    { unfold t. split.
      - apply Rdiv_lt_0_compat; nra.
      - apply Rmult_lt_reg_r with (INR n); [lra|]. unfold Rdiv. rewrite Rmult_assoc, Rinv_l by lra. nra. }
    pose proof (geometric n t) as Hg.
    assert (Hend : cis (INR n * t) = RtoC 1).
    { unfold t. replace (INR n * (2 * PI * IZR r / INR n)) with (2 * PI * IZR r) by (field; lra). apply cis_turn. }
    rewrite Hend in Hg.
    assert (Hne : Cminus (cis t) (RtoC 1) <> RtoC 0) by (apply Cminus_eq_contra, cis_not_1, Ht).
    set (S := csum (seq 0 n) _) in *.
    destruct (Ceq_dec S (RtoC 0)) as [HS|HS]; [exact HS|]. exfalso. apply (Cmult_neq_0 _ _ Hne HS). rewrite Hg. ring.
Qed.

(** Signed mode numbers. *)
Definition mode3 : Type := (Z * Z * Z)%type.
Definition of_node (k : node) : mode3 := let '(a, b, c) := k in (Z.of_nat a, Z.of_nat b, Z.of_nat c).
Definition thetaZ (d : extents) (k : mode3) (x : node) : R :=
  let '(nx, ny, nz) := d in
  let '(a, b, c) := k in
  let '(p, q, r) := x in
  INR p * (2 * PI * IZR a / INR nx) + INR q * (2 * PI * IZR b / INR ny) + INR r * (2 * PI * IZR c / INR nz).
Definition addm (k l : mode3) : mode3 := let '(a, b, c) := k in let '(a', b', c') := l in ((a + a')%Z, (b + b')%Z, (c + c')%Z).
Definition oppm (k : mode3) : mode3 := let '(a, b, c) := k in ((- a)%Z, (- b)%Z, (- c)%Z).
Definition zerom (d : extents) (k : mode3) : bool :=
  let '(nx, ny, nz) := d in let '(a, b, c) := k in
  ((a mod Z.of_nat nx =? 0)%Z && (b mod Z.of_nat ny =? 0)%Z && (c mod Z.of_nat nz =? 0)%Z)%bool.

Lemma theta_Z : forall d k x, theta d k x = thetaZ d (of_node k) x.
Proof.
  intros [[nx ny] nz] [[a b] c] [[p q] r]. unfold theta, thetaZ, of_node. rewrite <- !INR_IZR_INZ. unfold Rdiv. ring.
Qed.

Lemma thetaZ_add : forall d k l x, thetaZ d (addm k l) x = thetaZ d k x + thetaZ d l x.
Proof.
  intros [[nx ny] nz] [[a b] c] [[a' b'] c'] [[p q] r]. unfold thetaZ, addm. rewrite !plus_IZR. unfold Rdiv. ring.
Qed.

Lemma thetaZ_opp : forall d k x, thetaZ d (oppm k) x = - thetaZ d k x.
Proof. intros [[nx ny] nz] [[a b] c] [[p q] r]. unfold thetaZ, oppm. rewrite !opp_IZR. unfold Rdiv. ring. Qed.

Lemma count_pos : forall d, nonempty d -> 0 < count d.
Proof.
  intros [[nx ny] nz] (Hx & Hy & Hz). unfold count. apply lt_0_INR in Hx, Hy, Hz.
  apply Rmult_lt_0_compat; [apply Rmult_lt_0_compat|]; assumption.
Qed.

Lemma grid_sum : forall d (k : mode3), nonempty d ->
  csum (grid d) (fun x => cis (thetaZ d k x)) = if zerom d k then RtoC (count d) else RtoC 0.
Proof.
  intros [[nx ny] nz] [[a b] c] (Hx & Hy & Hz). rewrite csum_grid. unfold thetaZ.
  rewrite (csum_ext _ (seq 0 nx) _ (fun p => Cmult (cis (INR p * (2 * PI * IZR a / INR nx)))
     (Cmult (csum (seq 0 ny) (fun q => cis (INR q * (2 * PI * IZR b / INR ny)))) (csum (seq 0 nz) (fun r => cis (INR r * (2 * PI * IZR c / INR nz))))))).
  2:{ intros p _. rewrite (csum_ext _ (seq 0 ny) _ (fun q => Cmult (cis (INR p * (2 * PI * IZR a / INR nx)))
        (Cmult (cis (INR q * (2 * PI * IZR b / INR ny))) (csum (seq 0 nz) (fun r => cis (INR r * (2 * PI * IZR c / INR nz))))))).
      - rewrite csum_scal, csum_scal_r. reflexivity.
      - intros q _. rewrite <- !csum_scal. apply csum_ext. intros r _. rewrite !cis_plus. ring. }
  rewrite csum_scal_r, !roots_sum by assumption. unfold zerom, count.
  destruct (a mod Z.of_nat nx =? 0)%Z, (b mod Z.of_nat ny =? 0)%Z, (c mod Z.of_nat nz =? 0)%Z; cbn [andb]; try ring.
  rewrite !RtoC_mult. ring.
Qed.

Lemma mode_diff : forall n a b, (a < n)%nat -> (b < n)%nat -> ((Z.of_nat a + - Z.of_nat b) mod Z.of_nat n =? 0)%Z = (a =? b)%nat.
Proof.
  intros n a b Ha Hb. destruct (Nat.eqb_spec a b) as [->|Hne].
  - rewrite Z.add_opp_diag_r, Z.mod_0_l by lia. reflexivity.
  - apply Z.eqb_neq. intros H. apply Z.mod_divide in H; [|lia]. destruct H as [z Hz]. assert (z = 0)%Z by nia. lia.
Qed.

Definition eqn (k l : node) : bool :=
  let '(a, b, c) := k in let '(a', b', c') := l in ((a =? a') && (b =? b') && (c =? c'))%nat%bool.
Lemma eqn_spec : forall k l, reflect (k = l) (eqn k l).
Proof.
  intros [[a b] c] [[a' b'] c']. unfold eqn.
  destruct (Nat.eqb_spec a a'), (Nat.eqb_spec b b'), (Nat.eqb_spec c c'); cbn [andb]; constructor; congruence.
Qed.

(** Orthogonality of two modes. *)
Lemma orthogonality : forall d k l, nonempty d -> on_grid d k -> on_grid d l ->
  csum (grid d) (fun x => Cmult (cis (theta d k x)) (cis (- theta d l x))) = if eqn k l then RtoC (count d) else RtoC 0.
Proof.
  intros [[nx ny] nz] [[a b] c] [[a' b'] c'] Hd Hk Hl.
  rewrite (csum_ext _ _ _ (fun x => cis (thetaZ (nx, ny, nz) (addm (of_node (a, b, c)) (oppm (of_node (a', b', c')))) x))).
  - rewrite grid_sum by exact Hd. unfold zerom, addm, oppm, of_node, eqn, on_grid in *. rewrite !mode_diff by lia. reflexivity.
  - intros x _. rewrite thetaZ_add, thetaZ_opp, <- !theta_Z, cis_plus. reflexivity.
Qed.

(** Symmetric role of modes and nodes. *)
Lemma theta_sym : forall d k x, theta d k x = theta d x k.
Proof. intros [[nx ny] nz] [[a b] c] [[p q] r]. unfold theta. unfold Rdiv. ring. Qed.

(** Inversion: coefficients of a synthesised field. *)
Lemma fftn_ifftn : forall d h k, nonempty d -> on_grid d k -> fftn d (ifftn d h) k = h k.
Proof.
  intros d h k Hd Hk. unfold fftn, ifftn. pose proof (count_pos d Hd) as HN.
  rewrite (csum_ext _ _ _ (fun x => Cmult (RtoC (/ count d)) (csum (grid d) (fun l => Cmult (h l) (Cmult (cis (theta d l x)) (cis (- theta d k x))))))).
  2:{ intros x _. rewrite <- Cmult_assoc. f_equal. rewrite <- csum_scal_r. apply csum_ext. intros l _. ring. }
  rewrite csum_scal, csum_swap.
  rewrite (csum_ext _ _ _ (fun l => Cmult (h l) (if eqn l k then RtoC (count d) else RtoC 0))).
  2:{ intros l Hl. rewrite csum_scal. f_equal. apply orthogonality; [exact Hd|apply grid_In; exact Hl|exact Hk]. }
  rewrite (csum_pick _ _ k); [|apply grid_NoDup|apply grid_In; exact Hk|].
  - destruct (eqn_spec k k) as [_|H]; [|congruence]. rewrite RtoC_inv by lra. field.
    intros H. apply RtoC_inj in H. lra.
  - intros x _ Hne. destruct (eqn_spec x k) as [H|_]; [congruence|]. ring.
Qed.

Lemma ifftn_fftn : forall d f x, nonempty d -> on_grid d x -> ifftn d (fftn d f) x = f x.
Proof.
  intros d f x Hd Hx. unfold fftn, ifftn. pose proof (count_pos d Hd) as HN.
  rewrite (csum_ext _ _ _ (fun k => csum (grid d) (fun y => Cmult (f y) (Cmult (cis (theta d x k)) (cis (- theta d y k)))))).
  2:{ intros k _. rewrite <- csum_scal_r. apply csum_ext. intros y _. rewrite (theta_sym d k x), (theta_sym d k y). ring. }
  rewrite csum_swap.
  rewrite (csum_ext _ _ _ (fun y => Cmult (f y) (if eqn x y then RtoC (count d) else RtoC 0))).
  2:{ intros y Hy. rewrite csum_scal. f_equal. apply orthogonality; [exact Hd|exact Hx|apply grid_In; exact Hy]. }
  rewrite (csum_pick _ _ x); [|apply grid_NoDup|apply grid_In; exact Hx|].
  - destruct (eqn_spec x x) as [_|H]; [|congruence]. rewrite RtoC_inv by lra. field.
    intros H. apply RtoC_inj in H. lra.
  - intros y _ Hne. destruct (eqn_spec x y) as [H|_]; [congruence|]. ring.
Qed.
