(** Convergence of equidistant sums to the integral. *)

From Coq Require Import Reals List Arith Lra Lia Sorted.
From Coquelicot Require Import Coquelicot.
From Verif Require Import Prelude OpsModel OpsSpec OpsProofs QuadProofs.
Import ListNotations.
Open Scope R_scope.

Lemma T_equidistant : forall (f : R -> R) (x : nat -> R) h n s, (forall i, x (S i) - x i = h) ->
  T (map x (seq s (S n))) f = h * Rsum (map (fun j => (f (x j) + f (x (S j))) / 2) (seq s n)).
Proof.
  intros f x h n. induction n as [|n IH]; intros s Hx.
  - cbn [seq map]. rewrite T_single. unfold Rsum. cbn. ring.
  - change (seq s (S (S n))) with (s :: S s :: seq (S (S s)) n). cbn [map]. rewrite T_cons2.
    change (x (S s) :: map x (seq (S (S s)) n)) with (map x (seq (S s) (S n))). rewrite IH by exact Hx. rewrite Hx.
    change (seq s (S n)) with (s :: seq (S s) n). cbn [map]. unfold Rsum. cbn [fold_right]. lra.
Qed.

Lemma half_sums : forall (y : nat -> R) n s,
  Rsum (map (fun j => (y j + y (S j)) / 2) (seq s n)) = Rsum (map y (seq s n)) + (y (s + n)%nat - y s) / 2.
Proof.
  intros y n. induction n as [|n IH]; intros s.
  - unfold Rsum. cbn. rewrite Nat.add_0_r. lra.
  - cbn [seq map]. unfold Rsum in *. cbn [fold_right]. rewrite IH. replace (S s + n)%nat with (s + S n)%nat by lia. lra.
Qed.

Lemma Rsum_scale_r : forall (y : nat -> R) h l, Rsum (map (fun j => y j * h) l) = h * Rsum (map y l).
Proof. intros y h l. unfold Rsum. induction l as [|a l IH]; cbn [map fold_right]; [ring|]. rewrite IH. ring. Qed.

Lemma map_increasing : forall (x : nat -> R) n s, (forall i, x i < x (S i)) -> increasing (map x (seq s n)).
Proof.
  intros x n. assert (HM : forall (Hx : forall i, x i < x (S i)) i k, x i < x (i + S k)%nat).
  { intros Hx i k. induction k as [|k IH]; [rewrite Nat.add_1_r; apply Hx|]. apply Rlt_trans with (x (i + S k)%nat); [exact IH|].
    replace (i + S (S k))%nat with (S (i + S k)) by lia. apply Hx. }
  induction n as [|n IH]; intros s Hx; [constructor|]. cbn [seq map]. constructor; [apply IH; exact Hx|].
  apply Forall_forall. intros y Hy. apply in_map_iff in Hy. destruct Hy as (i & <- & Hi). apply in_seq in Hi.
  replace i with (s + S (i - s - 1))%nat by lia. apply HM. exact Hx.
Qed.

Lemma last_map_seq : forall (x : nat -> R) n s, last (map x (seq s (S n))) 0 = x (s + n)%nat.
Proof.
  intros x n s. rewrite seq_S, map_app. cbn [map]. rewrite last_last. reflexivity.
Qed.

(** Sums over N equidistant nodes of [-B, B] without the right end (and, in the second
    case, without either end) tend to the integral. *)
Lemma riemann_limit : forall (f : R -> R) B eps, 0 < B -> (forall x : R, continuous f x) -> f (- B) = f B -> 0 < eps ->
  exists N0, (1 <= N0)%nat /\ forall N, (N0 <= N)%nat ->
    let h := 2 * B / INR N in
    Rabs (Rsum (map (fun j => f (h * (INR j - INR N / 2)) * h) (seq 0 N)) - RInt f (- B) B) <= eps
    /\ Rabs (Rsum (map (fun j => f (h * (INR j - INR N / 2)) * h) (seq 1 (N - 1))) - RInt f (- B) B) <= eps.
Proof.
  intros f B eps HB Hc Hs He.
  assert (Hp : 0 < eps / (2 * (2 * B))) by (apply Rdiv_lt_0_compat; lra).
  assert (Hcp : forall x, - B <= x <= B -> continuity_pt f x) by (intros x _; apply continuity_pt_filterlim; apply Hc).
  destruct (Heine_cor2 Hcp (mkposreal _ Hp)) as (dl & Hd).
  cbn [pos] in Hd.
  destruct (nfloor_ex (2 * B / dl + 2 * (2 * B * Rabs (f B)) / eps)) as (n0 & _ & Hn0).
  { apply Rplus_le_le_0_compat; [apply Rlt_le, Rdiv_lt_0_compat; [lra|apply cond_pos]|]. apply Rmult_le_pos; [|left; apply Rinv_0_lt_compat; lra].
    pose proof (Rabs_pos (f B)). apply Rmult_le_pos; [lra|]. apply Rmult_le_pos; lra. }
  exists (S n0). split; [lia|]. intros N HN h.
  assert (HNI : INR n0 + 1 <= INR N) by (rewrite <- S_INR; apply le_INR; exact HN). pose proof (pos_INR n0).
  assert (Hh : 0 < h) by (apply Rdiv_lt_0_compat; lra).
  assert (T1 : 0 < 2 * B / dl) by (apply Rdiv_lt_0_compat; [lra|apply cond_pos]).
  assert (T2 : 0 <= 2 * (2 * B * Rabs (f B)) / eps).
  { apply Rmult_le_pos; [|left; apply Rinv_0_lt_compat; lra]. pose proof (Rabs_pos (f B)). apply Rmult_le_pos; [lra|]. apply Rmult_le_pos; lra. }
  assert (Hhd : h < dl).
  { unfold h. apply Rmult_lt_reg_r with (INR N); [lra|]. replace (2 * B / INR N * INR N) with (2 * B) by (field; lra).
    apply Rmult_lt_reg_r with (/ dl); [apply Rinv_0_lt_compat, cond_pos|]. replace (dl * INR N * / dl) with (INR N) by (field; apply Rgt_not_eq, cond_pos).
    unfold Rdiv in *. lra. }
  assert (Hhe : h * Rabs (f B) <= eps / 2).
  { unfold h. apply Rmult_le_reg_r with (INR N); [lra|]. replace (2 * B / INR N * Rabs (f B) * INR N) with (2 * B * Rabs (f B)) by (field; lra).
    assert (X : 2 * (2 * B * Rabs (f B)) / eps <= INR N) by lra. apply Rmult_le_compat_r with (r := eps / 2) in X; [|lra].
    replace (2 * (2 * B * Rabs (f B)) / eps * (eps / 2)) with (2 * B * Rabs (f B)) in X by (field; lra). lra. }
  set (x := fun j : nat => h * (INR j - INR N / 2)).
  assert (X0 : x 0%nat = - B) by (unfold x, h; cbn [INR]; field; lra).
  assert (XN : x N = B) by (unfold x, h; field; lra).
  assert (XS : forall i, x (S i) - x i = h) by (intros i; unfold x; rewrite S_INR; ring).
  assert (HT : T (map x (seq 0 (S N))) f = Rsum (map (fun j => f (x j) * h) (seq 0 N))).
  { rewrite (T_equidistant f x h N 0 XS), (half_sums (fun j => f (x j)) N 0). cbn [Nat.add]. rewrite X0, XN, Hs. rewrite (Rsum_scale_r (fun j => f (x j))). lra. }
  assert (HE : Rabs (T (map x (seq 0 (S N))) f - RInt f (- B) B) <= eps / (2 * (2 * B)) * (2 * B)).
  { assert (F1 : first_node (map x (seq 0 (S N))) = - B) by (cbn; exact X0).
    assert (F2 : last_node (map x (seq 0 (S N))) = B) by (unfold last_node; rewrite last_map_seq; exact XN).
    pose proof (trap_err (map x (seq 0 (S N))) f h (eps / (2 * (2 * B)))) as Q. rewrite F1, F2 in Q.
    replace (2 * B) with (B - - B) at 2 by ring. apply Q.
    - apply map_increasing. intros i. specialize (XS i). lra.
    - apply gaps_map_seq. intros i _ _. rewrite XS. lra.
    - intros u _. apply Hc.
    - intros u v Hu Hv Huv. left. apply Hd; [exact Hu|exact Hv|]. lra. }
  replace (eps / (2 * (2 * B)) * (2 * B)) with (eps / 2) in HE by (field; lra). rewrite HT in HE.
  change (fun j => f (h * (INR j - INR N / 2)) * h) with (fun j => f (x j) * h). split; [lra|].
  destruct N as [|n]; [cbn in HNI; lra|]. cbn [seq map Nat.sub] in HE |- *. rewrite Nat.sub_0_r. unfold Rsum in *. cbn [fold_right] in HE.
  set (S := fold_right Rplus 0 (map (fun j => f (x j) * h) (seq 1 n))) in *. rewrite X0, Hs in HE.
  assert (Hf : Rabs (f B * h) <= eps / 2) by (rewrite Rabs_mult, (Rabs_pos_eq h) by lra; lra).
  replace (S - RInt f (- B) B) with ((f B * h + S - RInt f (- B) B) + - (f B * h)) by ring.
  eapply Rle_trans; [apply Rabs_triang|]. rewrite Rabs_Ropp. lra.
Qed.
